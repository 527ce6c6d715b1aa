(** C21, C22, C23, C78: copy-on-write strings. *)
From Coq Require Import Arith ZArith Lia Bool List.
From Verif Require Import Slots SlotsProofs StringModel StringProofs StringMembers.
Import ListNotations.

Section Thms.
  Variable junk : nat -> nat -> nat.
  Variable enc0 : nat.
  Variable ansi : bool.
  Variable unicode : nat -> bool.
  Notation run_op := (run_op junk enc0 ansi unicode).
  Notation run := (run junk enc0 ansi unicode).

  (** * Specification
      Each string that exists is a text and the number of locks on it. *)
  Definition world := nat -> option (list nat * nat).
  Definition wput (w : world) (i : nat) (x : option (list nat * nat)) : world := fun k => if k =? i then x else w k.

  (** The text without the longest prefix of characters in [tr]. *)
  Fixpoint drop (tr l : list nat) : list nat :=
    match l with
    | x :: l' => if existsb (Nat.eqb x) tr then drop tr l' else l
    | [] => []
    end.
  (** What TrimEnd leaves: when a non-empty run follows a non-empty body, the last character of
      the body is lost and the last character of the run stays (see C22 below). *)
  Definition trim_end (tr l : list nat) : list nat :=
    let body := rev (drop tr (rev l)) in
    match body with
    | [] => []
    | _ => if length body =? length l then l else removelast body ++ [last l 0]
    end.

  (** What a program may do: it names objects that exist and makes new ones in free slots; writes
      through a pointer only while the buffer is locked and inside the text; does not move-assign
      from a locked string (an exception leaves a noexcept function), does not append a string
      to itself, and does not run out of memory in Remove (both undefined behaviour, below). *)
  Definition pre (n : nat) (w : world) (o : op) : Prop :=
    let ex i := exists l k, w i = Some (l, k) in
    let new i := i < n /\ w i = None in
    match o with
    | ONew i | ONewLit _ i _ => new i
    | ONewCopy _ i j | ONewMove i j | OSub _ i j _ _ => new i /\ ex j
    | OAssign _ i j => ex i /\ ex j
    | OAssignMove i j => ex i /\ (i = j \/ exists l, w j = Some (l, 0))
    | OAppendStr _ i j => ex i /\ ex j /\ (i <> j \/ exists k, w i = Some ([], k))
    | OWrite i k _ => exists l m, w i = Some (l, S m) /\ k < length l
    | OEdit _ i m off l => exists l0 k, w i = Some (l0, k) /\ off <= length l0 /\ off + length l <= m
    | ORemove oom i _ _ | OSlice oom i _ _ | OTrimStart oom i _ | OTrimEnd oom i _ | OTrim oom i _ => oom = false /\ ex i
    | ODelete i | OSet _ i _ | OClear i | OSetItem _ i _ _ | OAppend _ i _ | OLock _ i _ | OUnlock i | OUnlockN i _ | OEnc _ i _ => ex i
    end.

  (** What it reports ([None]: an exception) and leaves.  [T = true] are the rules for values;
      the rules with [T = false] are the damage done to strings that share their buffer. *)
  Inductive aspec (T : bool) (w : world) : op -> option code -> world -> Prop :=
  | A_New i : aspec T w (ONew i) (Some S_OK) (wput w i (Some ([], 0)))
  | A_NewLit oom i l : aspec T w (ONewLit oom i l) (Some S_OK) (wput w i (Some (l, 0)))
  | A_NewLit_oom i l : aspec T w (ONewLit true i l) None w
  | A_NewCopy oom i j l k : w j = Some (l, k) -> aspec T w (ONewCopy oom i j) (Some S_OK) (wput w i (Some (l, 0)))
  | A_NewCopy_oom i j l k : w j = Some (l, S k) -> aspec T w (ONewCopy true i j) None w
  | A_NewMove i j l k : w j = Some (l, k) -> (* also of a locked buffer *)
      aspec T w (ONewMove i j) (Some S_OK) (wput (wput w i (Some (l, k))) j (Some ([], 0)))
  | A_Sub oom i j p n l k : w j = Some (l, k) -> aspec T w (OSub oom i j p n) (Some S_OK) (wput w i (Some (firstn n (skipn p l), 0)))
  | A_Sub_oom i j p n : aspec T w (OSub true i j p n) None w
  | A_Delete i : aspec T w (ODelete i) (Some S_OK) (wput w i None)
  | A_Assign_self oom i : aspec T w (OAssign oom i i) (Some S_OK) w
  | A_Assign oom i j l : w j = Some (l, 0) -> aspec T w (OAssign oom i j) (Some S_OK) (wput w i (Some (l, 0)))
  | A_Assign_locked oom i j l m l0 k : w j = Some (l, S m) -> w i = Some (l0, k) ->
      aspec T w (OAssign oom i j) (Some S_OK) (wput w i (Some (l, k)))
  | A_Assign_oom i j l m l0 : w j = Some (l, S m) -> w i = Some (l0, 0) ->
      aspec T w (OAssign true i j) None (wput w i (Some ([], 0)))
  | A_Assign_throw oom i j l m l0 k : w j = Some (l, S m) -> w i = Some (l0, S k) ->
      aspec T w (OAssign oom i j) None (wput w i (Some ([], S k)))
  | A_AssignMove_self i : aspec T w (OAssignMove i i) (Some S_OK) w
  | A_AssignMove i j l : i <> j -> w j = Some (l, 0) ->
      aspec T w (OAssignMove i j) (Some S_OK) (wput (wput w i (Some (l, 0))) j (Some ([], 0)))
  | A_AssignMove_same i j l : w i = Some (l, 0) -> w j = Some (l, 0) -> (* one shared buffer: the source is kept *)
      aspec T w (OAssignMove i j) (Some S_OK) w
  | A_Set oom i l l0 k : w i = Some (l0, k) -> aspec T w (OSet oom i l) (Some S_OK) (wput w i (Some (l, k)))
  | A_Set_oom i l l0 : w i = Some (l0, 0) -> aspec T w (OSet true i l) (Some E_OUTOFMEMORY) (wput w i (Some ([], 0)))
  | A_Set_throw oom i l l0 k : w i = Some (l0, S k) -> aspec T w (OSet oom i l) None (wput w i (Some ([], S k)))
  | A_Clear i l k : w i = Some (l, k) -> aspec T w (OClear i) (Some S_OK) (wput w i (Some ([], k)))
  | A_SetItem oom i j ch l k : w i = Some (l, k) -> j < length l ->
      aspec T w (OSetItem oom i j ch) (Some S_OK) (wput w i (Some (firstn j l ++ [ch] ++ skipn (j + 1) l, k)))
  | A_SetItem_damage oom i j ch l : T = false -> w i = Some (l, 0) -> j < length l ->
      aspec T w (OSetItem oom i j ch) (Some S_OK) (wput w i (Some ([], 0)))
  | A_SetItem_bounds oom i j ch l k : w i = Some (l, k) -> length l <= j -> aspec T w (OSetItem oom i j ch) (Some E_BOUNDS) w
  | A_SetItem_oom i j ch l : w i = Some (l, 0) -> j < length l -> aspec T w (OSetItem true i j ch) (Some E_OUTOFMEMORY) w
  | A_Append oom i l l0 k : w i = Some (l0, k) -> aspec T w (OAppend oom i l) (Some S_OK) (wput w i (Some (l0 ++ l, k)))
  | A_Append_oom i l l0 : w i = Some (l0, 0) -> aspec T w (OAppend true i l) (Some E_OUTOFMEMORY) w
  | A_Append_throw oom i l l0 k : w i = Some (l0, S k) -> aspec T w (OAppend oom i l) None w
  | A_AppendStr oom i j l m l0 k : w j = Some (l, m) -> w i = Some (l0, k) ->
      aspec T w (OAppendStr oom i j) (Some S_OK) (wput w i (Some (l0 ++ l, k)))
  | A_AppendStr_take oom i j l k : w j = Some (l, 0) -> l <> [] -> w i = Some ([], k) -> (* the buffer of [j], not locked *)
      aspec T w (OAppendStr oom i j) (Some S_OK) (wput w i (Some (l, 0)))
  | A_AppendStr_oom i j l0 : w i = Some (l0, 0) -> aspec T w (OAppendStr true i j) (Some E_OUTOFMEMORY) w
  | A_AppendStr_throw oom i j l0 k : w i = Some (l0, S k) -> aspec T w (OAppendStr oom i j) None w
  | A_Lock oom i n l k : w i = Some (l, k) -> aspec T w (OLock oom i n) (Some S_OK) (wput w i (Some (l, S k)))
  | A_Lock_empty oom i : w i = Some ([], 0) -> aspec T w (OLock oom i 0) (Some S_OK) w (* the static buffer *)
  | A_Lock_damage oom i n l : T = false -> w i = Some (l, 0) -> l <> [] ->
      aspec T w (OLock oom i n) (Some S_OK) (wput w i (Some ([], 1)))
  | A_Lock_oom i n l : w i = Some (l, 0) -> aspec T w (OLock true i n) (Some E_OUTOFMEMORY) w
  | A_Lock_throw oom i n l k : w i = Some (l, S k) -> length l < n -> aspec T w (OLock oom i n) None w
  | A_Write i j ch l k : w i = Some (l, k) ->
      aspec T w (OWrite i j ch) (Some S_OK) (wput w i (Some (firstn j l ++ [ch] ++ skipn (j + 1) l, k)))
  | A_Unlock i l k : w i = Some (l, S k) -> aspec T w (OUnlock i) (Some S_OK) (wput w i (Some (l, k)))
  | A_Unlock_empty i : w i = Some ([], 0) -> aspec T w (OUnlock i) (Some S_OK) w
  | A_Unlock_throw i l : w i = Some (l, 0) -> aspec T w (OUnlock i) None w
  | A_UnlockN i n l k : w i = Some (l, S k) -> n <= length l -> aspec T w (OUnlockN i n) (Some S_OK) (wput w i (Some (firstn n l, k)))
  | A_UnlockN_more i n l k x : w i = Some (l, S k) -> length (l ++ x) <= n -> (* what the buffer contains *)
      aspec T w (OUnlockN i n) (Some S_OK) (wput w i (Some (l ++ x, k)))
  | A_UnlockN_empty i n : w i = Some ([], 0) -> aspec T w (OUnlockN i n) (Some S_OK) w
  | A_UnlockN_throw i n l : w i = Some (l, 0) -> aspec T w (OUnlockN i n) None w
  | A_Edit oom i n off l l0 k : w i = Some (l0, k) -> aspec T w (OEdit oom i n off l) (Some S_OK) (wput w i (Some (firstn off l0 ++ l, k)))
  | A_Edit_oom i n off l l0 : w i = Some (l0, 0) -> aspec T w (OEdit true i n off l) (Some E_OUTOFMEMORY) w
  | A_Edit_throw oom i n off l l0 k : w i = Some (l0, S k) -> aspec T w (OEdit oom i n off l) None w
  | A_Enc oom i e : aspec T w (OEnc oom i e) (Some S_OK) w
  | A_Enc_damage oom i e l : T = false -> w i = Some (l, 0) -> aspec T w (OEnc oom i e) (Some S_OK) (wput w i (Some ([], 0)))
  | A_Enc_no oom i e c : c = E_NOINTERFACE \/ c = E_INVALIDARG -> aspec T w (OEnc oom i e) (Some c) w
  | A_Enc_oom i e l : w i = Some (l, 0) -> aspec T w (OEnc true i e) (Some E_OUTOFMEMORY) w
  | A_Enc_throw oom i e l k : w i = Some (l, S k) -> aspec T w (OEnc oom i e) None w
  | A_Remove oom i j c l k : w i = Some (l, k) ->
      aspec T w (ORemove oom i j c) (Some S_OK) (wput w i (Some (firstn j l ++ skipn (j + c) l, k)))
  | A_Slice oom i a b l k : w i = Some (l, k) ->
      aspec T w (OSlice oom i a b) (Some S_OK) (wput w i (Some (firstn (length l - a - b) (skipn a l), k)))
  | A_TrimStart oom i tr l k : w i = Some (l, k) ->
      aspec T w (OTrimStart oom i tr) (Some S_OK) (wput w i (Some (drop tr l, k)))
  | A_TrimEnd oom i tr l k : w i = Some (l, k) ->
      aspec T w (OTrimEnd oom i tr) (Some S_OK) (wput w i (Some (trim_end tr l, k)))
  | A_Trim oom i tr l k : w i = Some (l, k) ->
      aspec T w (OTrim oom i tr) (Some S_OK) (wput w i (Some (drop tr (trim_end tr l), k))).

  Definition weq (a b : world) : Prop := forall i, a i = b i.
  Inductive aspecs (T : bool) (w : world) : list op -> list (option code) -> world -> Prop :=
  | A_nil w' : weq w w' -> aspecs T w [] [] w'
  | A_cons o r w1 w1' ops rs w2 : aspec T w o r w1 -> weq w1 w1' -> aspecs T w1' ops rs w2 -> aspecs T w (o :: ops) (r :: rs) w2.
  (** Every operation of the program is allowed where it is reached. *)
  Fixpoint safe (T : bool) (n : nat) (w : world) (ops : list op) : Prop :=
    match ops with
    | [] => True
    | o :: ops' => pre n w o /\ forall r w1 w1', aspec T w o r w1 -> weq w1 w1' -> safe T n w1' ops'
    end.

  (** Another object has the same buffer, and it is not the static empty one. *)
  Definition Shared (s : st) (i : nat) : Prop :=
    exists a j, a <> 0 /\ i <> j /\ get (vars s) i = Some a /\ get (vars s) j = Some a.
  (** SetItem, LockBuffer and SetANSIEncoding are only used on a string with its own buffer. *)
  Definition private (s : st) (o : op) : Prop :=
    match o with OSetItem _ i _ _ | OLock _ i _ | OEnc _ i _ => ~ Shared s i | _ => True end.
  Fixpoint clean (s : st) (ops : list op) : Prop :=
    match ops with
    | [] => True
    | o :: ops' => private s o /\ match run_op o s with R s1 _ => clean s1 ops' | Bad => True end
    end.

  (** What string [i] reads back: its buffer and its length. *)
  Definition buffer (s : st) (i : nat) : option blk :=
    match get (vars s) i with
    | None => None
    | Some a => if a =? 0 then Some (empty_blk enc0) else heap s a
    end.
  Definition contents (s : st) (i : nat) : option (list nat) :=
    match buffer s i with Some b => Some (firstn (size b) (buf b)) | None => None end.

  (** * Proofs *)
  Definition okz (T : bool) (z : status) : Prop := if T then z = Good else z <> Open.
  Definition H (s : st) (a : nat) : hs := mkhs (heap s) (next s) a.
  Definition Rep (T : bool) (n : nat) (s : st) (w : world) : Prop :=
    length (vars s) = n /\ Inv (H s 0) (slots (vars s)) /\
    forall i, match get (vars s) i with
              | None => w i = None
              | Some a => exists l k z, view (H s a) a = Some (l, k, z) /\ w i = Some (l, k) /\ okz T z
              end.
  Definition others (s : st) (i : nat) : nat -> nat := slots (set (vars s) i None).

  Lemma okz_open : forall T z, okz T z -> z <> Open.
  Proof. intros [] z Hz; [rewrite Hz; discriminate|assumption]. Qed.
  Lemma okz_good : forall T, okz T Good.
  Proof. intros []; [reflexivity|discriminate]. Qed.
  Lemma okz_or : forall T z z', okz T z -> z' = z \/ z' = Good -> okz T z'.
  Proof. intros T z z' K [->| ->]; [assumption|apply okz_good]. Qed.
  Lemma get_lt : forall (vs : list (option nat)) i a, get vs i = Some a -> i < length vs.
  Proof. intros vs i a G. unfold get in G. destruct (nth_error vs i) eqn:E; [|discriminate]. apply nth_error_Some. congruence. Qed.
  Lemma slots_others : forall vs i a x, i < length vs -> slots (set vs i (Some a)) x = add a (slots (set vs i None)) x.
  Proof.
    intros vs i a x L. pose proof (slots_set (set vs i None) i (Some a) x ltac:(rewrite set_length; assumption)) as Q.
    rewrite set_set in Q. rewrite get_set_eq in Q by assumption. cbn in Q. unfold add. rewrite (Nat.eqb_sym x a). lia.
  Qed.
  Lemma slots_mine : forall vs i a x, get vs i = Some a -> slots vs x = add a (slots (set vs i None)) x.
  Proof. intros vs i a x G. rewrite <- (slots_others vs i a x (get_lt _ _ _ G)). rewrite <- G, set_get. reflexivity. Qed.
  Lemma others_pos : forall s i j c, i <> j -> get (vars s) j = Some c -> 1 <= others s i c.
  Proof. intros s i j c NE G. unfold others. apply (slots_get _ j). rewrite get_set_neq by assumption. assumption. Qed.
  Lemma view_H : forall s a b x, view (H s a) x = view (H s b) x. Proof. reflexivity. Qed.

  Lemma Rep_own : forall T n s w i l k, Rep T n s w -> w i = Some (l, k) ->
    exists a z, get (vars s) i = Some a /\ i < n /\ Own (others s i) (H s a) (l, k, z) /\ okz T z.
  Proof.
    intros T n s w i l k (L & I & V) W. specialize (V i). destruct (get (vars s) i) as [a|] eqn:G; [|congruence].
    destruct V as (l' & k' & z & Vw & W' & K). rewrite W in W'. injection W' as <- <-.
    exists a, z. split; [reflexivity|]. split; [rewrite <- L; eapply get_lt; eassumption|]. split; [|assumption]. split; [|exact Vw].
    apply (Inv_heap (H s 0)); [|reflexivity|reflexivity]. eapply Inv_ext; [exact I|]. intros x _. apply slots_mine. assumption.
  Qed.
  (** Object [i] changes. *)
  Lemma Rep_put : forall T n s w i (h h' : hs) l k z, Rep T n s w -> i < n ->
    hp h = heap s -> Ends (others s i) h h' (l, k, z) -> okz T z ->
    Rep T n (ST (hp h') (nx h') (set (vars s) i (Some (ptr h')))) (wput w i (Some (l, k))).
  Proof.
    intros T n s w i h h' l k z (L & I & V) Li Eh [[I' V'] S'] K. split; [cbn; rewrite set_length; assumption|]. split.
    - apply (Inv_heap h'); [|reflexivity|reflexivity]. eapply Inv_ext; [exact I'|]. intros x _. cbn [vars]. symmetry. apply slots_others. lia.
    - intros j. cbn [vars]. unfold wput. destruct (Nat.eqb_spec j i) as [->|NE].
      + rewrite get_set_eq by lia. exists l, k, z. split; [exact V'|]. auto.
      + rewrite get_set_neq by auto. specialize (V j). destruct (get (vars s) j) as [c|] eqn:G; [|assumption].
        destruct V as (l1 & k1 & z1 & V1 & W1 & K1). exists l1, k1, z1. split; [|auto].
        change (view h' c = Some (l1, k1, z1)). rewrite S' by (apply (others_pos s i j c); auto). rewrite <- V1. apply view_heap. cbn. assumption.
  Qed.
  Lemma Rep_same : forall T n s w i a, Rep T n s w -> get (vars s) i = Some a ->
    Rep T n (ST (hp (H s a)) (nx (H s a)) (set (vars s) i (Some (ptr (H s a))))) w.
  Proof. intros T n s w i a RP G. cbn. rewrite <- G, set_get. destruct s. exact RP. Qed.
  Lemma Rep_weq : forall T n s w w', Rep T n s w -> weq w w' -> Rep T n s w'.
  Proof.
    intros T n s w w' (L & I & V) E. split; [assumption|]. split; [assumption|]. intros i. specialize (V i).
    destruct (get (vars s) i); rewrite <- E; exact V.
  Qed.
  Lemma weq_same : forall w i x, w i = Some x -> weq (wput w i (Some x)) w.
  Proof. intros w i x E j. unfold wput. destruct (Nat.eqb_spec j i) as [->|]; congruence. Qed.
  Lemma not_shared : forall s i a, get (vars s) i = Some a -> ~ Shared s i -> ~ shared (others s i) (H s a).
  Proof.
    intros s i a G N [NZ P]. apply N. cbn in P, NZ. unfold others in P. apply slots_In in P. apply In_nth_error in P. destruct P as [j E].
    exists a, j. split; [assumption|]. destruct (Nat.eq_dec i j) as [<-|NE].
    - rewrite nth_set_eq in E by (eapply get_lt; eassumption). discriminate.
    - split; [assumption|]. split; [assumption|]. rewrite nth_set_neq in E by assumption. unfold get. rewrite E. reflexivity.
  Qed.

  Lemma Rep_init : forall T n, Rep T n (init n) (fun _ => None).
  Proof.
    intros T n. split; [cbn; apply repeat_length|]. split.
    - constructor; cbn; [lia|reflexivity|]. intros a _. apply slots_repeat.
    - intros i. cbn. replace (get (repeat None n) i) with (@None nat); [reflexivity|].
      unfold get. destruct (nth_error (repeat None n) i) eqn:E; [|reflexivity]. apply nth_error_In in E. apply repeat_spec in E. congruence.
  Qed.

  (** One operation. *)
  Definition GoodR (T : bool) (n : nat) (w : world) (o : op) (x : result) : Prop :=
    match x with R s' r => exists w', aspec T w o r w' /\ Rep T n s' w' | Bad => False end.

  Lemma on_eq : forall s i a f, get (vars s) i = Some a -> on i f s =
    match f (H s a) with
    | Ret h c => R (ST (hp h) (nx h) (set (vars s) i (Some (ptr h)))) (Some c)
    | Exn h => R (ST (hp h) (nx h) (set (vars s) i (Some (ptr h)))) None
    | UB => Bad
    end.
  Proof. intros s i a f G. unfold on. rewrite G. reflexivity. Qed.
  Lemma make_eq : forall T n s w i f, Rep T n s w -> i < n -> w i = None ->
    Own (others s i) (H s 0) ([], 0, Good) /\ others s i = slots (vars s) /\
    make i f s = match f (H s 0) with
      | Ret h S_OK => R (ST (hp h) (nx h) (set (vars s) i (Some (ptr h)))) (Some S_OK)
      | Ret h _ | Exn h => R (ST (hp h) (nx h) (vars s)) None
      | UB => Bad
      end.
  Proof.
    intros T n s w i f (L & I & V) Li W. assert (G : get (vars s) i = None).
    { specialize (V i). destruct (get (vars s) i); [|reflexivity]. destruct V as (? & ? & ? & _ & ? & _). congruence. }
    assert (E : others s i = slots (vars s)) by (unfold others; rewrite <- G, set_get; reflexivity).
    split; [|split; [exact E|]].
    - split; [|reflexivity]. cbn [ptr H]. rewrite E. eapply Inv_ext; [exact I|]. intros x NX. symmetry. apply add_other. assumption.
    - unfold make. rewrite G. destruct (Nat.ltb_spec i (length (vars s))); [|lia]. reflexivity.
  Qed.
  Lemma Rep_back : forall T n s w, Rep T n s w -> Rep T n (ST (hp (H s 0)) (nx (H s 0)) (vars s)) w.
  Proof. intros T n s w RP. destruct s. exact RP. Qed.

  Lemma lead_drop : forall tr l, skipn (lead tr l) l = drop tr l.
  Proof. intros tr l. induction l as [|x l IH]; [reflexivity|]. cbn. fold (mem x tr). unfold mem. destruct (existsb (Nat.eqb x) tr); [exact IH|reflexivity]. Qed.
  Lemma keep_body : forall tr l n, n <= length l ->
    rev (drop tr (rev (firstn n l))) = firstn (keep tr l n) l /\ keep tr l n <= n.
  Proof.
    intros tr l n. induction n as [|n IH]; intros L; [auto|]. destruct IH as [IH1 IH2]; [lia|].
    assert (E : firstn (S n) l = firstn n l ++ [nth n l 0]).
    { clear -L. revert n L. induction l as [|x l IHl]; intros n L; [cbn in L; lia|]. destruct n; [reflexivity|]. cbn [firstn nth app]. f_equal. apply IHl. cbn in L. lia. }
    rewrite E, rev_app_distr. cbn [rev app drop keep]. fold (mem (nth n l 0) tr). unfold mem.
    destruct (existsb (Nat.eqb (nth n l 0)) tr).
    - split; [exact IH1|lia].
    - split; [|lia]. cbn [rev]. rewrite rev_involutive, E. reflexivity.
  Qed.
  Lemma skipn_last : forall l : list nat, l <> [] -> skipn (length l - 1) l = [last l 0].
  Proof.
    intros l NE. rewrite (app_removelast_last 0 NE) at 2. rewrite skipn_app.
    assert (Q : length (removelast l) = length l - 1).
    { pose proof (f_equal (@length nat) (app_removelast_last 0 NE)) as Q. rewrite app_length in Q. cbn in Q. lia. }
    rewrite skipn_all2 by lia. rewrite Q, Nat.sub_diag. reflexivity.
  Qed.
  Lemma trimmed_trim : forall tr l, trimmed tr l = trim_end tr l.
  Proof.
    intros tr l. destruct (keep_body tr l (length l) (le_n _)) as [K1 K2]. rewrite firstn_all in K1.
    unfold trim_end. rewrite K1. set (n := keep tr l (length l)) in *.
    assert (LB : length (firstn n l) = n) by (rewrite firstn_length; lia).
    assert (X : tr = [] -> n = length l).
    { intros ->. unfold n. clear. induction (length l) as [|m IH]; reflexivity. }
    unfold trimmed. destruct tr as [|x tr].
    - specialize (X eq_refl). rewrite X, firstn_all. destruct l as [|y l]; [reflexivity|]. rewrite Nat.eqb_refl. reflexivity.
    - fold n. cbn zeta. clearbody n. destruct (Nat.eqb_spec n 0) as [Z|NZ].
      + rewrite Z. reflexivity.
      + assert (NL : l <> []) by (intros ->; cbn [length] in K2; lia).
        destruct (firstn n l) as [|y b] eqn:B; [cbn in LB; lia|]. rewrite <- B in *. rewrite LB.
        destruct (Nat.eqb_spec n (length l)) as [EL|NL2].
        * rewrite EL, Nat.sub_diag. apply rem_0.
        * unfold rem. replace (n - 1 + (length l - n)) with (length l - 1) by lia. rewrite skipn_last by assumption. f_equal.
          destruct n as [|m]; [lia|]. rewrite removelast_firstn by lia. f_equal. lia.
  Qed.

  Ltac own i W := match goal with RP : Rep ?T ?n ?s ?w |- _ =>
    let a := fresh "a" in let z := fresh "z" in let G := fresh "G" in let L := fresh "Li" in let O := fresh "O" in let K := fresh "Kz" in
    destruct (Rep_own T n s w i _ _ RP W) as (a & z & G & L & O & K) end.

  (** An operation on object [i] that always succeeds. *)
  Lemma step_unit : forall T n s w o i a l k l' z f, Rep T n s w -> i < n -> get (vars s) i = Some a -> okz T z ->
    (exists s', f (H s a) = Ret s' tt /\ Shrunk (others s i) (H s a) s' l' k z) ->
    w i = Some (l, k) -> aspec T w o (Some S_OK) (wput w i (Some (l', k))) -> GoodR T n w o (on i (ok f) s).
  Proof.
    intros T n s w o i a l k l' z f RP Li G K (s' & E & z' & Z & N) W A. rewrite (on_eq s i a _ G). unfold ok, bind. rewrite E. cbn.
    eexists; split; [exact A|]. eapply Rep_put; [exact RP|exact Li| |exact N|eapply okz_or; eassumption]. reflexivity.
  Qed.

  Lemma step_ok : forall T n o s w, Rep T n s w -> pre n w o -> (T = true -> private s o) -> GoodR T n w o (run_op o s).
  Proof.
    intros T n o s w RP P PV. destruct o; cbn [run_op].
    - (* ONew *) destruct P as [Li W]. destruct (make_eq T n s w i (ret S_OK) RP Li W) as (O & _ & ->). cbn.
      eexists; split; [constructor|]. eapply (Rep_put T n s w i (H s 0) (H s 0)); [exact RP|exact Li|reflexivity|apply Ends_refl; exact O|apply okz_good].
    - (* ONewLit *) destruct P as [Li W]. destruct (make_eq T n s w i (SetString junk enc0 oom (Lit l)) RP Li W) as (O & _ & ->).
      pose proof (SetString_new junk enc0 _ _ oom (Lit l) l O eq_refl eq_refl) as Q.
      destruct (SetString junk enc0 oom (Lit l) (H s 0)) as [s' []|s'|]; try contradiction.
      + destruct Q as [N _]. eexists; split; [constructor|]. eapply Rep_put; [exact RP|exact Li| |exact N|apply okz_good]. reflexivity.
      + destruct Q as [-> ->]. eexists; split; [constructor|]. apply Rep_back. assumption.
    - (* ONewCopy *) destruct P as [[Li W] (l & k & Wj)]. own j Wj. unfold ptr_of. rewrite G.
      destruct (make_eq T n s w i (CopyCtor junk enc0 oom a) RP Li W) as (O2 & E2 & ->).
      assert (NE : i <> j) by congruence.
      pose proof (CopyCtor_spec junk enc0 _ _ oom a l k z O2 eq_refl) as Q. specialize (Q ltac:(apply O) (others_pos s i j a NE G)).
      destruct (CopyCtor junk enc0 oom a (H s 0)) as [s' []|s'|]; try contradiction.
      + destruct Q as [[-> N]|[_ N]]; (eexists; split; [econstructor; exact Wj|]);
          eapply Rep_put; try exact N; try exact RP; try exact Li; try reflexivity; [assumption|apply okz_good].
      + destruct Q as (-> & M & ->). destruct k as [|k]; [lia|]. eexists; split; [econstructor; exact Wj|]. apply Rep_back. assumption.
    - (* ONewMove *) destruct P as [[Li W] (l & k & Wj)]. own j Wj. unfold ptr_of. rewrite G.
      destruct (make_eq T n s w i (point a ;;; ret S_OK) RP Li W) as (O2 & E2 & ->). cbn. assert (NE : i <> j) by congruence.
      eexists; split; [econstructor; exact Wj|].
      destruct RP as (L & I & V). split; [cbn; rewrite !set_length; assumption|]. split.
      + apply (Inv_heap (H s 0)); [|reflexivity|reflexivity]. eapply Inv_ext; [exact I|]. intros x NX. cbn [vars].
        rewrite (slots_others _ j 0 x) by (rewrite set_length; eapply get_lt; eassumption). rewrite add_other by assumption.
        rewrite set_swap by assumption. rewrite (slots_others _ i a x) by (rewrite set_length; lia).
        rewrite set_swap by auto. change (slots (set (set (vars s) i None) j None) x) with (slots (set (set (vars s) i None) j None) x).
        rewrite (slots_mine (vars s) j a x G). unfold others in E2. unfold add. f_equal.
        replace (set (vars s) i None) with (vars s); [reflexivity|]. symmetry.
        assert (GI : get (vars s) i = None).
        { specialize (V i). destruct (get (vars s) i); [|reflexivity]. destruct V as (? & ? & ? & _ & ? & _). congruence. }
        rewrite <- GI. apply set_get.
      + intros q. cbn [vars]. unfold wput. destruct (Nat.eqb_spec q j) as [->|NJ].
        * rewrite get_set_eq by (rewrite set_length; eapply get_lt; eassumption). exists [], 0, Good. split; [reflexivity|]. split; [reflexivity|]. apply okz_good.
        * rewrite get_set_neq by auto. destruct (Nat.eqb_spec q i) as [->|NI].
          -- rewrite get_set_eq by lia. exists l, k, z. split; [apply O|]. auto.
          -- rewrite get_set_neq by auto. apply V.
    - (* OSub *) destruct P as [[Li W] (l & m & Wj)]. own j Wj. unfold ptr_of. rewrite G.
      destruct (make_eq T n s w i (Substring junk enc0 ansi unicode oom a k n0) RP Li W) as (O2 & E2 & ->).
      assert (NE : i <> j) by congruence.
      pose proof (Substring_spec junk enc0 ansi unicode _ _ oom a k n0 l m z O2 eq_refl) as Q. specialize (Q ltac:(apply O) (others_pos s i j a NE G)).
      destruct (Substring junk enc0 ansi unicode oom a k n0 (H s 0)) as [s' []|s'|]; try contradiction.
      + destruct Q as (z' & Z & N). eexists; split; [econstructor; exact Wj|].
        eapply Rep_put; [exact RP|exact Li| |exact N|eapply okz_or; eassumption]. reflexivity.
      + destruct Q as (-> & ->). eexists; split; [econstructor|]. apply Rep_back. assumption.
    - (* ODelete *) destruct P as (l & k & W). own i W. rewrite (on_eq s i a _ G). unfold this, bind.
      destruct (Delete_spec enc0 _ _ _ O) as (s' & E & I' & S' & P'). cbn [ptr H] in E. cbn [H ptr]. rewrite E. cbn.
      eexists; split; [constructor|]. destruct RP as (L & I & V). split; [cbn; rewrite !set_length; assumption|]. split.
      + apply (Inv_heap s'); [|reflexivity|reflexivity]. cbn [vars]. rewrite set_set. exact I'.
      + intros q. cbn [vars]. rewrite set_set. unfold wput. destruct (Nat.eqb_spec q i) as [->|NI].
        * rewrite get_set_eq by lia. reflexivity.
        * rewrite get_set_neq by auto. specialize (V q). destruct (get (vars s) q) as [c|] eqn:Gq; [|assumption].
          destruct V as (l1 & k1 & z1 & V1 & W1 & K1). exists l1, k1, z1. split; [|auto].
          change (view s' c = Some (l1, k1, z1)). rewrite S' by (apply (others_pos s i q c); auto). exact V1.
    - (* OAssign *) destruct P as [(l0 & k0 & W) (l & k & Wj)]. own i W. own j Wj. unfold ptr_of. rewrite G0.
      rewrite (on_eq s i a _ G). unfold bind at 1.
      destruct (Nat.eq_dec i j) as [<-|NE].
      { rewrite G in G0. injection G0 as <-. unfold SetStringCopy, this, bind. cbn [H ptr]. rewrite Nat.eqb_refl. cbn.
        eexists; split; [constructor|]. apply (Rep_same T n s w i a); assumption. }
      pose proof (SetStringCopy_spec junk enc0 _ _ oom a0 l0 k0 z l k z0 O) as Q.
      specialize (Q ltac:(apply add_pos; apply (others_pos s i j); assumption) ltac:(apply O0)).
      destruct (SetStringCopy junk enc0 oom a0 (H s a)) as [s' []|s'|]; try contradiction; cbn.
      + destruct Q as [(Ea & ->)|[(NEa & -> & N)|(NEa & M & N)]].
        * cbn in Ea. subst a0. assert (X : l = l0 /\ k = k0 /\ k = 0).
          { destruct O as [I1 V1]. destruct O0 as [_ V0]. cbn [ptr H] in *. rewrite V1 in V0. injection V0 as -> -> _.
            repeat split; auto. destruct (Nat.eq_dec a 0) as [->|NZ]; [cbn in V1; injection V1 as ? ? _; auto|].
            destruct (live _ _ a I1 NZ ltac:(rewrite add_self; lia)) as (b & Hb & _ & _ & B).
            rewrite add_self in B. pose proof (others_pos s i j a NE G0).
            destruct (view_live _ _ _ NZ V1) as (b' & Hb' & EV). rewrite Hb in Hb'. injection Hb' as <-. injection EV as _ EK _.
            rewrite EK. apply lockn_pos. lia. }
          destruct X as (-> & -> & ->). exists (wput w i (Some (l0, 0))). split; [eapply A_Assign; exact Wj|].
          eapply Rep_weq; [apply Rep_same; eassumption|]. intros q. symmetry. apply weq_same. assumption.
        * eexists; split; [eapply A_Assign; exact Wj|]. eapply Rep_put; [exact RP|exact Li| |exact N|assumption]. reflexivity.
        * destruct k as [|k]; [lia|]. eexists; split; [eapply A_Assign_locked; eassumption|].
          eapply Rep_put; [exact RP|exact Li| |exact N|apply okz_good]. reflexivity.
      + destruct Q as (M & -> & -> & N). destruct k as [|k]; [lia|]. eexists; split; [eapply A_Assign_oom; eassumption|].
        eapply Rep_put; [exact RP|exact Li| |exact N|apply okz_good]. reflexivity.
      + destruct Q as (M & M0 & N). destruct k as [|k]; [lia|]. destruct k0 as [|k0]; [lia|]. eexists; split; [eapply A_Assign_throw; eassumption|].
        eapply Rep_put; [exact RP|exact Li| |exact N|apply okz_good]. reflexivity.
    - (* OAssignMove *) destruct P as [(l0 & k0 & W) D]. own i W. unfold ptr_of. rewrite G.
      destruct D as [<-|(l & Wj)].
      { rewrite G. rewrite Nat.eqb_refl. cbn. eexists; split; [constructor|assumption]. }
      own j Wj. rewrite G0. destruct (Nat.eqb_spec a a0) as [<-|NEa].
      { cbn. destruct O as [_ V1]. destruct O0 as [_ V0]. cbn [ptr H] in *. rewrite V1 in V0. injection V0 as <- -> _.
        eexists; split; [eapply A_AssignMove_same; eassumption|assumption]. }
      assert (NE : i <> j) by (intros <-; congruence).
      destruct (load_view enc0 (H s a) (slots (vars s)) a0 l 0 z0) as (b & E & _ & _ & Kb & _).
      { apply (Inv_heap (H s 0)); [apply RP|reflexivity|reflexivity]. } { apply (slots_get _ j). assumption. } { apply O0. }
      fold (H s a). rewrite E. unfold IsLocked. destruct (Z.ltb_spec (iref b) 0) as [Nb|Nb].
      { rewrite lockn_neg in Kb by assumption. lia. }
      set (s1 := ST (heap s) (next s) (set (vars s) j (Some 0))).
      assert (G1 : get (vars s1) i = Some a) by (cbn; rewrite get_set_neq by auto; assumption).
      rewrite (on_eq s1 i a _ G1). unfold bind. change (H s1 a) with (H s a).
      destruct (Attach_spec enc0 (others s1 i) (H s a) a0 (l, 0, z0)) as (s' & E' & N' & P').
      { apply (Inv_heap (H s 0)); [|reflexivity|reflexivity]. eapply Inv_ext; [apply RP|]. intros x NX. cbn [ptr H].
        unfold others. cbn [vars s1]. rewrite (set_swap _ (vars s) j i) by auto.
        rewrite (slots_mine (vars s) i a x G). unfold add. rewrite (slots_mine (set (vars s) i None) j a0 x) by (rewrite get_set_neq by auto; assumption).
        pose proof (slots_others (set (vars s) i None) j 0 x ltac:(rewrite set_length; eapply get_lt; eassumption)) as Q.
        rewrite add_other in Q by assumption. rewrite Q. unfold add. lia. }
      { apply O0. }
      rewrite E'. cbn. exists (wput (wput w i (Some (l, 0))) j (Some ([], 0))). split; [apply A_AssignMove; assumption|].
      assert (R1 : length (vars s1) = n) by (cbn; rewrite set_length; apply RP).
      destruct RP as (L & I & V). destruct N' as [[I' V'] S'].
      split; [cbn; rewrite !set_length; assumption|]. split.
      + apply (Inv_heap s'); [|reflexivity|reflexivity]. eapply Inv_ext; [exact I'|]. intros x _. cbn [vars]. symmetry. rewrite (slots_others _ i (ptr s') x) by (rewrite set_length; lia). reflexivity.
      + intros q. cbn [vars]. unfold wput. destruct (Nat.eqb_spec q j) as [->|NJ].
        * rewrite get_set_neq by auto. rewrite get_set_eq by lia. exists [], 0, Good. split; [reflexivity|]. split; [reflexivity|]. apply okz_good.
        * destruct (Nat.eqb_spec q i) as [->|NI].
          -- rewrite get_set_eq by (rewrite set_length; lia). exists l, 0, z0. split; [exact V'|]. auto.
          -- rewrite !get_set_neq by auto. specialize (V q). destruct (get (vars s) q) as [c|] eqn:Gq; [|assumption].
             destruct V as (l1 & k1 & z1 & V1 & W1 & K1). exists l1, k1, z1. split; [|auto].
             change (view s' c = Some (l1, k1, z1)). rewrite S'; [exact V1|].
             apply (others_pos s1 i q c); auto. cbn. rewrite get_set_neq by auto. assumption.
    - (* OSet *) destruct P as (l0 & k & W). own i W. rewrite (on_eq s i a _ G).
      pose proof (SetString_spec junk enc0 _ _ oom l0 k z (Lit l) l O eq_refl) as Q.
      destruct (SetString junk enc0 oom (Lit l) (H s a)) as [s' []|s'|]; try contradiction.
      + eexists; split; [econstructor; exact W|]. eapply Rep_put; [exact RP|exact Li| |exact Q|apply okz_good]. reflexivity.
      + destruct Q as (-> & -> & N). eexists; split; [econstructor; exact W|]. eapply Rep_put; [exact RP|exact Li| |exact N|apply okz_good]. reflexivity.
      + destruct Q as (M & N). destruct k as [|k]; [lia|]. eexists; split; [econstructor; exact W|]. eapply Rep_put; [exact RP|exact Li| |exact N|apply okz_good]. reflexivity.
    - (* OClear *) destruct P as (l0 & k & W). own i W.
      apply (step_unit T n s w _ i a l0 k [] z _ RP Li G Kz (Clear_shrunk enc0 _ _ l0 k z O) W). econstructor; exact W.
    - (* OSetItem *) destruct P as (l0 & m & W). own i W. rewrite (on_eq s i a _ G).
      pose proof (SetItem_spec junk enc0 _ _ oom k ch l0 m z O (okz_open _ _ Kz)) as Q.
      destruct (SetItem junk enc0 oom k ch (H s a)) as [s' []|s'|]; try contradiction.
      + destruct Q as (L & [(_ & z' & Z & N)|(NL & SH & -> & z' & Z & N)]).
        * eexists; split; [econstructor; eassumption|]. eapply Rep_put; [exact RP|exact Li| |exact N|eapply okz_or; eassumption]. reflexivity.
        * destruct T; [exfalso; apply (not_shared s i a G (PV eq_refl)); assumption|].
          eexists; split; [eapply A_SetItem_damage; eauto|]. eapply Rep_put; [exact RP|exact Li| |exact N|exact Z]. reflexivity.
      + destruct Q as (L & ->). eexists; split; [econstructor; eassumption|]. apply Rep_same; assumption.
      + destruct Q as (L & -> & -> & ->). eexists; split; [econstructor; eassumption|]. apply Rep_same; assumption.
    - (* OAppend *) destruct P as (l0 & k & W). own i W. rewrite (on_eq s i a _ G).
      pose proof (Append_spec junk enc0 _ _ oom l0 k z (Lit l) l O (okz_open _ _ Kz) eq_refl) as Q.
      destruct (Append junk enc0 oom (Lit l) (H s a)) as [s' []|s'|]; try contradiction.
      + exists (wput w i (Some (l0 ++ l, k))). split; [econstructor; exact W|]. destruct Q as [(-> & ->)|(NL & N)].
        * rewrite app_nil_r. eapply Rep_weq; [apply Rep_same; eassumption|]. intros q. symmetry. apply weq_same. assumption.
        * eapply Rep_put; [exact RP|exact Li| |exact N|apply okz_good]. reflexivity.
      + destruct Q as (-> & -> & ->). eexists; split; [econstructor; exact W|]. apply Rep_same; assumption.
      + destruct Q as (M & ->). destruct k as [|k]; [lia|]. eexists; split; [econstructor; exact W|]. apply Rep_same; assumption.
    - (* OAppendStr *) destruct P as [(l0 & k & W) [(l & m & Wj) D]]. own i W. own j Wj. unfold ptr_of. rewrite G0. rewrite (on_eq s i a _ G).
      destruct (Nat.eq_dec i j) as [<-|NE].
      { destruct D as [?|(k' & We)]; [contradiction|]. rewrite G in G0. injection G0 as <-.
        rewrite W in We. injection We as -> ->. rewrite W in Wj. injection Wj as <- <-.
        destruct (Own_load enc0 _ _ _ _ _ O) as (b & E & _ & Sz & _). unfold AppendStr, bind. cbn [ptr H] in E. rewrite E, Sz. cbn.
        exists (wput w i (Some ([] ++ [], k'))). split; [econstructor; exact W|].
        eapply Rep_weq; [apply Rep_same; eassumption|]. intros q. symmetry. apply weq_same. assumption. }
      pose proof (AppendStr_spec junk enc0 _ _ oom a0 l0 k z l m z0 O (okz_open _ _ Kz)) as Q.
      specialize (Q ltac:(apply O0) (others_pos s i j a0 NE G0)).
      assert (SAME : Rep T n (ST (hp (H s a)) (nx (H s a)) (set (vars s) i (Some (ptr (H s a))))) w) by (apply Rep_same; assumption).
      destruct (AppendStr junk enc0 oom a0 (H s a)) as [s' []|s'|]; try contradiction.
      + destruct Q as [(-> & ->)|[(NL & -> & Ea & ->)|[(NL & -> & [(-> & N)|(M & N)])|(NL & NL0 & N)]]].
        * exists (wput w i (Some (l0 ++ [], k))). split; [econstructor; eassumption|].
          rewrite app_nil_r. eapply Rep_weq; [exact SAME|]. intros q. symmetry. apply weq_same. assumption.
        * exfalso. cbn in Ea. subst a0. destruct O as [_ V1]. destruct O0 as [_ V0]. cbn [ptr H] in *. rewrite V1 in V0. injection V0 as X _ _. apply NL. symmetry. exact X.
        * eexists; split; [eapply A_AppendStr_take; eassumption|]. eapply Rep_put; [exact RP|exact Li| |exact N|assumption]. reflexivity.
        * exists (wput w i (Some ([] ++ l, k))). split; [econstructor; eassumption|]. eapply Rep_put; [exact RP|exact Li| |exact N|apply okz_good]. reflexivity.
        * eexists; split; [econstructor; eassumption|]. eapply Rep_put; [exact RP|exact Li| |exact N|apply okz_good]. reflexivity.
      + destruct Q as (-> & -> & [->|(N & ->)]); (eexists; split; [econstructor; eassumption|]).
        * exact SAME.
        * eapply Rep_weq; [eapply (Rep_put T n s w i); [exact RP|exact Li| |exact N|apply okz_good]; reflexivity|]. apply weq_same. assumption.
      + destruct Q as (M & [->|(N & ->)]); (destruct k as [|k]; [lia|]); (eexists; split; [econstructor; eassumption|]).
        * exact SAME.
        * eapply Rep_weq; [eapply (Rep_put T n s w i); [exact RP|exact Li| |exact N|apply okz_good]; reflexivity|]. apply weq_same. assumption.
    - (* OLock *) destruct P as (l0 & k & W). own i W. rewrite (on_eq s i a _ G). unfold bind.
      pose proof (Lock_op junk enc0 _ _ oom n0 l0 k z O (okz_open _ _ Kz)) as Q.
      destruct (LockBuffer junk enc0 oom n0 (H s a)) as [s' []|s'|]; try contradiction; cbn.
      + destruct Q as [(-> & -> & -> & P' & N)|[(_ & z' & Z & N)|(NL & SH & -> & z' & Z & N)]].
        * exists w. split; [apply A_Lock_empty; assumption|].
          eapply Rep_weq; [eapply (Rep_put T n s w i); [exact RP|exact Li| |exact N|apply okz_good]; reflexivity|]. apply weq_same. assumption.
        * eexists; split; [econstructor; exact W|]. eapply Rep_put; [exact RP|exact Li| |exact N|eapply okz_or; eassumption]. reflexivity.
        * destruct T; [exfalso; apply (not_shared s i a G (PV eq_refl)); assumption|].
          eexists; split; [eapply A_Lock_damage; eauto|]. eapply Rep_put; [exact RP|exact Li| |exact N|exact Z]. reflexivity.
      + destruct Q as (-> & -> & ->). eexists; split; [econstructor; eassumption|]. apply Rep_same; assumption.
      + destruct Q as (-> & M & L). destruct k as [|k]; [lia|]. eexists; split; [econstructor; eassumption|]. apply Rep_same; assumption.
    - (* OWrite *) destruct P as (l0 & m & W & L). own i W. rewrite (on_eq s i a _ G).
      destruct (Write_op enc0 _ _ k ch l0 m z O (okz_open _ _ Kz) L) as (s' & E & N). rewrite E.
      eexists; split; [econstructor; exact W|]. eapply Rep_put; [exact RP|exact Li| |exact N|assumption]. reflexivity.
    - (* OUnlock *) destruct P as (l0 & k & W). own i W. rewrite (on_eq s i a _ G). unfold ok, bind.
      pose proof (Unlock_op enc0 _ _ l0 k z O) as Q.
      destruct (UnlockBuffer enc0 (H s a)) as [s' u|s'|]; try contradiction; cbn.
      + destruct Q as [(P' & ->)|(k' & -> & N)].
        * cbn in P'. subst a. assert (X : l0 = [] /\ k = 0) by (destruct O as [_ V1]; cbn in V1; injection V1 as ? ? _; auto). destruct X as [-> ->].
          eexists; split; [apply A_Unlock_empty; assumption|]. apply (Rep_same T n s w i 0); assumption.
        * eexists; split; [econstructor; exact W|]. eapply Rep_put; [exact RP|exact Li| |exact N|assumption]. reflexivity.
      + destruct Q as (-> & ->). eexists; split; [eapply A_Unlock_throw; exact W|]. apply Rep_same; assumption.
    - (* OUnlockN *) destruct P as (l0 & k & W). own i W. rewrite (on_eq s i a _ G). unfold ok, bind.
      pose proof (UnlockN_op enc0 _ _ n0 l0 k z O) as Q.
      destruct (UnlockBufferN enc0 n0 (H s a)) as [s' u|s'|]; try contradiction; cbn.
      + destruct Q as [(P' & ->)|(k' & l' & -> & Q1 & Q2 & Q3 & N)].
        * cbn in P'. subst a. assert (X : l0 = [] /\ k = 0) by (destruct O as [_ V1]; cbn in V1; injection V1 as ? ? _; auto). destruct X as [-> ->].
          eexists; split; [apply A_UnlockN_empty; assumption|]. apply (Rep_same T n s w i 0); assumption.
        * exists (wput w i (Some (l', k'))). split; [|eapply Rep_put; [exact RP|exact Li| |exact N|apply okz_good]; reflexivity].
          destruct (Nat.le_ge_cases n0 (length l0)) as [Ln|Ln].
          -- rewrite (Q1 Ln). econstructor; eassumption.
          -- rewrite <- (firstn_skipn (length l0) l'). rewrite (Q3 Ln). eapply A_UnlockN_more; [exact W|].
             rewrite <- (Q3 Ln) at 1. rewrite firstn_skipn. assumption.
      + destruct Q as (-> & ->). eexists; split; [eapply A_UnlockN_throw; exact W|]. apply Rep_same; assumption.
    - (* OEdit *) destruct P as (l0 & k & W & L1 & L2). own i W. rewrite (on_eq s i a _ G).
      pose proof (Edit_spec junk enc0 _ _ oom n0 off l0 k z l O (okz_open _ _ Kz) L1 L2) as Q.
      destruct (Edit junk enc0 oom n0 off l (H s a)) as [s' []|s'|]; try contradiction.
      + eexists; split; [econstructor; exact W|]. eapply Rep_put; [exact RP|exact Li| |exact Q|apply okz_good]. reflexivity.
      + destruct Q as (-> & -> & ->). eexists; split; [econstructor; exact W|]. apply Rep_same; assumption.
      + destruct Q as (M & ->). destruct k as [|k]; [lia|]. eexists; split; [econstructor; exact W|]. apply Rep_same; assumption.
    - (* OEnc *) destruct P as (l0 & k & W). own i W. rewrite (on_eq s i a _ G).
      pose proof (SetANSI_spec junk enc0 ansi unicode _ _ oom e l0 k z O (okz_open _ _ Kz)) as Q.
      destruct (SetANSIEncoding junk enc0 ansi unicode oom e (H s a)) as [s' []|s'|]; try contradiction.
      + destruct Q as [->|[(_ & z' & Z & N)|(NL & SH & -> & z' & Z & N)]].
        * eexists; split; [constructor|]. apply Rep_same; assumption.
        * exists w. split; [constructor|].
          eapply Rep_weq; [eapply (Rep_put T n s w i); [exact RP|exact Li| |exact N|eapply okz_or; eassumption]; reflexivity|]. apply weq_same. assumption.
        * destruct T; [exfalso; apply (not_shared s i a G (PV eq_refl)); assumption|].
          eexists; split; [eapply A_Enc_damage; eauto|]. eapply Rep_put; [exact RP|exact Li| |exact N|exact Z]. reflexivity.
      + destruct Q as (-> & -> & ->). eexists; split; [econstructor; eassumption|]. apply Rep_same; assumption.
      + subst s'. eexists; split; [apply A_Enc_no; auto|]. apply Rep_same; assumption.
      + subst s'. eexists; split; [apply A_Enc_no; auto|]. apply Rep_same; assumption.
      + destruct Q as (M & ->). destruct k as [|k]; [lia|]. eexists; split; [econstructor; exact W|]. apply Rep_same; assumption.
    - (* ORemove *) destruct P as [-> (l0 & m & W)]. own i W.
      apply (step_unit T n s w _ i a l0 m _ z _ RP Li G Kz (Remove_spec junk enc0 ansi unicode _ _ k c l0 m z O (okz_open _ _ Kz)) W). econstructor; exact W.
    - (* OSlice *) destruct P as [-> (l0 & m & W)]. own i W.
      apply (step_unit T n s w _ i a l0 m _ z _ RP Li G Kz (Slice_spec junk enc0 ansi unicode _ _ k e l0 m z O (okz_open _ _ Kz)) W). econstructor; exact W.
    - (* OTrimStart *) destruct P as [-> (l0 & m & W)]. own i W.
      apply (step_unit T n s w _ i a l0 m _ z _ RP Li G Kz (TrimStart_spec junk enc0 ansi unicode _ _ tr l0 m z O (okz_open _ _ Kz)) W).
      rewrite lead_drop. econstructor; exact W.
    - (* OTrimEnd *) destruct P as [-> (l0 & m & W)]. own i W.
      apply (step_unit T n s w _ i a l0 m _ z _ RP Li G Kz (TrimEnd_spec junk enc0 ansi unicode _ _ tr l0 m z O (okz_open _ _ Kz)) W).
      rewrite trimmed_trim. econstructor; exact W.
    - (* OTrim *) destruct P as [-> (l0 & m & W)]. own i W.
      apply (step_unit T n s w _ i a l0 m _ z _ RP Li G Kz (Trim_spec junk enc0 ansi unicode _ _ tr l0 m z O (okz_open _ _ Kz)) W).
      rewrite lead_drop, trimmed_trim. econstructor; exact W.
  Qed.

  Lemma run_ok : forall T n ops s w, Rep T n s w -> safe T n w ops -> (T = true -> clean s ops) ->
    exists s' rs w', run s ops = Some (s', rs) /\ aspecs T w ops rs w' /\ Rep T n s' w'.
  Proof.
    intros T n ops. induction ops as [|o ops IH]; intros s w RP SF CL.
    - exists s, [], w. split; [reflexivity|]. split; [|assumption]. constructor. intros i. reflexivity.
    - destruct SF as [P SF]. pose proof (step_ok T n o s w RP P (fun E => proj1 (CL E))) as G. cbn [StringModel.run].
      destruct (run_op o s) as [s1 r|] eqn:E; [|contradiction]. destruct G as (w1 & A & RP1).
      destruct (IH s1 w1 RP1 (SF _ _ _ A (fun i => eq_refl))) as (s2 & rs & w2 & E2 & A2 & RP2).
      { intros ET. specialize (CL ET). cbn [clean] in CL. rewrite E in CL. apply CL. }
      rewrite E2. exists s2, (r :: rs), w2. split; [reflexivity|]. split; [|assumption].
      econstructor; [exact A|intros i; reflexivity|exact A2].
  Qed.

  Definition nothing : world := fun _ => None.
  (** The states that programs reach: any program, or one that is also [clean]. *)
  Definition Reach (T : bool) (n : nat) (s : st) : Prop :=
    exists ops rs, safe T n nothing ops /\ (T = true -> clean (init n) ops) /\ run (init n) ops = Some (s, rs).
  Lemma Reach_Rep : forall T n s, Reach T n s -> exists w, Rep T n s w.
  Proof.
    intros T n s (ops & rs & SF & CL & E). destruct (run_ok T n ops (init n) nothing (Rep_init T n) SF CL) as (s' & rs' & w' & E' & _ & RP).
    rewrite E in E'. injection E' as <- <-. exists w'. assumption.
  Qed.

  Lemma Rep_contents : forall T n s w i, Rep T n s w -> contents s i = match w i with Some (l, _) => Some l | None => None end.
  Proof.
    intros T n s w i (L & I & V). specialize (V i). unfold contents, buffer. destruct (get (vars s) i) as [a|]; [|rewrite V; reflexivity].
    destruct V as (l & k & z & V & -> & _). unfold view in V. destruct (a =? 0).
    - injection V as <- _ _. reflexivity.
    - cbn in V. destruct (heap s a) as [b|]; [|discriminate]. injection V as <- _ _. reflexivity.
  Qed.
  Lemma contents_w : forall T n s w i l, Rep T n s w -> contents s i = Some l -> exists k, w i = Some (l, k).
  Proof.
    intros T n s w i l RP C. rewrite (Rep_contents T n s w i RP) in C. destruct (w i) as [[l' k]|]; [|discriminate]. injection C as <-. eauto.
  Qed.

  (** ** C21 *)
  (** In a clean history every string has the text of an independent value; the results are the
      specified ones.  Missing: SetItem, LockBuffer and SetANSIEncoding on a string that shares
      its buffer, where the claim is false (see the refutations). *)
  Theorem C21_values_partial : forall n ops, safe true n nothing ops -> clean (init n) ops ->
    exists s rs w, run (init n) ops = Some (s, rs) /\ aspecs true nothing ops rs w /\
      forall i, contents s i = match w i with Some (l, _) => Some l | None => None end.
  Proof.
    intros n ops SF CL. destruct (run_ok true n ops (init n) nothing (Rep_init _ n) SF (fun _ => CL)) as (s & rs & w & E & A & RP).
    exists s, rs, w. split; [assumption|]. split; [assumption|]. intros i. apply (Rep_contents true n). assumption.
  Qed.

  (** In every history, no undefined behaviour, and the only other results are the named ones. *)
  Theorem C21_no_ub_partial : forall n ops, safe false n nothing ops ->
    exists s rs w, run (init n) ops = Some (s, rs) /\ aspecs false nothing ops rs w /\
      forall i, contents s i = match w i with Some (l, _) => Some l | None => None end.
  Proof.
    intros n ops SF. destruct (run_ok false n ops (init n) nothing (Rep_init _ n) SF ltac:(discriminate)) as (s & rs & w & E & A & RP).
    exists s, rs, w. split; [assumption|]. split; [assumption|]. intros i. apply (Rep_contents false n). assumption.
  Qed.

  (** The rules determine the result: for strings that are not locked, without an allocation
      failure, and for the operations other than locking, SetANSIEncoding and move-assignment
      (whose result depends on whether the two share a buffer). *)
  Definition determined (o : op) : bool :=
    match o with
    | ONew _ | ONewMove _ _ | ODelete _ | OClear _ => true
    | ONewLit oom _ _ | ONewCopy oom _ _ | OSub oom _ _ _ _ | OAssign oom _ _ | OSet oom _ _ | OSetItem oom _ _ _
    | OAppend oom _ _ | OAppendStr oom _ _ | OEdit oom _ _ _ _ | ORemove oom _ _ _ | OSlice oom _ _ _ | OTrimStart oom _ _
    | OTrimEnd oom _ _ | OTrim oom _ _ => negb oom
    | OAssignMove _ _ | OLock _ _ _ | OWrite _ _ _ | OUnlock _ | OUnlockN _ _ | OEnc _ _ _ => false
    end.
  Theorem C21_spec_functional : forall w o r1 w1 r2 w2, (forall i l k, w i = Some (l, k) -> k = 0) -> determined o = true ->
    aspec true w o r1 w1 -> aspec true w o r2 w2 -> r1 = r2 /\ weq w1 w2.
  Proof.
    intros w o r1 w1 r2 w2 U D A1 A2.
    assert (U2 : forall i l k, w i = Some (l, S k) -> False) by (intros i l k E; specialize (U _ _ _ E); discriminate).
    destruct A1; try discriminate; inversion A2; subst; try discriminate; try (exfalso; eapply U2; eassumption);
      repeat match goal with X : w ?i = Some _, Y : w ?i = Some _ |- _ => rewrite X in Y; injection Y as ? ?; subst end;
      try lia; try contradiction; try (split; [reflexivity|intros q; reflexivity]);
      repeat match goal with X : w ?i = Some (_, ?k) |- _ => is_var k; pose proof (U _ _ _ X); subst k end;
      try (split; [reflexivity|intros q; reflexivity]);
      try (split; [reflexivity|]; intros q; unfold wput; destruct (Nat.eqb_spec q i); subst; congruence).
    - split; [reflexivity|]. apply weq_same. assumption.
    - exfalso. match goal with X : w2 i = Some (?a, ?b), Y : w2 i = Some (?c, ?d) |- _ => rewrite X in Y; injection Y as ? ? end. subst. lia.
  Qed.

  (** An operation changes no other string: [touched] are the objects it is applied to or moves
      from. *)
  Definition touched (o : op) : list nat :=
    match o with
    | ONewMove i j | OAssignMove i j => [i; j]
    | ONew i | ONewLit _ i _ | ONewCopy _ i _ | OSub _ i _ _ _ | ODelete i | OAssign _ i _ | OSet _ i _ | OClear i
    | OSetItem _ i _ _ | OAppend _ i _ | OAppendStr _ i _ | OLock _ i _ | OWrite i _ _ | OUnlock i | OUnlockN i _
    | OEdit _ i _ _ _ | OEnc _ i _ | ORemove _ i _ _ | OSlice _ i _ _ | OTrimStart _ i _ | OTrimEnd _ i _ | OTrim _ i _ => [i]
    end.
  Lemma aspec_frame : forall T w o r w' k, aspec T w o r w' -> ~ In k (touched o) -> w' k = w k.
  Proof.
    intros T w o r w' k A N. destruct A; cbn in N; unfold wput; try reflexivity;
      repeat match goal with |- context [k =? ?x] => destruct (Nat.eqb_spec k x); [exfalso; apply N; auto|] end; reflexivity.
  Qed.
  Lemma run_snoc : forall T n o ops s w, Rep T n s w -> safe T n w (ops ++ [o]) -> (T = true -> clean s (ops ++ [o])) ->
    exists s1 rs w1, run s ops = Some (s1, rs) /\ Rep T n s1 w1 /\ pre n w1 o /\ (T = true -> private s1 o) /\
      match run_op o s1 with R s2 r => run s (ops ++ [o]) = Some (s2, rs ++ [r]) | Bad => False end.
  Proof.
    intros T n o ops. induction ops as [|x ops IH]; intros s w RP SF CL.
    - exists s, [], w. destruct SF as [P SF]. split; [reflexivity|]. split; [assumption|]. split; [assumption|].
      split; [intros E; apply (CL E)|]. pose proof (step_ok T n o s w RP P (fun E => proj1 (CL E))) as G.
      cbn [app StringModel.run]. destruct (run_op o s); [reflexivity|contradiction].
    - destruct SF as [P SF]. pose proof (step_ok T n x s w RP P (fun E => proj1 (CL E))) as G. cbn [StringModel.run app] in *.
      destruct (run_op x s) as [s1 r|] eqn:E; [|contradiction]. destruct G as (w1 & A & RP1).
      destruct (IH s1 w1 RP1 (SF _ _ _ A (fun i => eq_refl))) as (s2 & rs & w2 & E2 & RP2 & P2 & PV & M).
      { intros ET. specialize (CL ET). cbn [clean] in CL. rewrite E in CL. apply CL. }
      rewrite E2. exists s2, (r :: rs), w2. split; [reflexivity|]. split; [assumption|]. split; [assumption|]. split; [assumption|].
      destruct (run_op o s2); [rewrite M; reflexivity|contradiction].
  Qed.
  Theorem C21_others_unchanged : forall n ops o, safe false n nothing (ops ++ [o]) ->
    exists s rs s' r, run (init n) ops = Some (s, rs) /\ run (init n) (ops ++ [o]) = Some (s', rs ++ [r]) /\
      forall k, ~ In k (touched o) -> contents s' k = contents s k.
  Proof.
    intros n ops o SF. destruct (run_snoc false n o ops (init n) nothing (Rep_init _ n) SF ltac:(discriminate)) as (s & rs & w & E & RP & P & _ & M).
    pose proof (step_ok false n o s w RP P ltac:(discriminate)) as G. destruct (run_op o s) as [s' r|]; [|contradiction].
    destruct G as (w' & A & RP'). exists s, rs, s', r. split; [assumption|]. split; [assumption|]. intros k N.
    rewrite (Rep_contents false n s' w' k RP'), (Rep_contents false n s w k RP), (aspec_frame _ _ _ _ _ k A N). reflexivity.
  Qed.

  (** In every reachable state a block is alive exactly while objects refer to it; its count is
      their number, or it is locked and belongs to exactly one. *)
  Definition referrers (s : st) (a : nat) : nat := length (filter (fun p => eqp p (Some a)) (vars s)).
  Lemma referrers_slots : forall s a, referrers s a = slots (vars s) a.
  Proof.
    intros s a. unfold referrers, slots. induction (vars s) as [|p l IH]; [reflexivity|]. cbn. destruct p as [x|]; cbn.
    - destruct (x =? a); cbn; lia.
    - exact IH.
  Qed.
  Theorem C21_counts : forall n s, Reach false n s -> forall a, a <> 0 ->
    match heap s a with
    | Some b => ((0 < iref b)%Z /\ iref b = Z.of_nat (referrers s a)) \/ ((iref b < 0)%Z /\ referrers s a = 1)
    | None => referrers s a = 0
    end.
  Proof.
    intros n s RC a NZ. destruct (Reach_Rep _ _ _ RC) as (w & _ & I & _). pose proof (inv_b _ _ I a NZ) as B. cbn in B.
    rewrite referrers_slots. destruct (heap s a) as [b|]; [|assumption]. apply B.
  Qed.
  (** When all the strings are gone, all the memory is. *)
  Theorem C21_no_leak : forall n s, Reach false n s -> (forall i, get (vars s) i = None) -> forall a, a <> 0 -> heap s a = None.
  Proof.
    intros n s RC N a NZ. pose proof (C21_counts n s RC a NZ) as C. destruct (heap s a) as [b|]; [|reflexivity].
    assert (Z : referrers s a = 0).
    { rewrite referrers_slots. destruct (Nat.eq_dec (slots (vars s) a) 0) as [|NE]; [assumption|]. exfalso.
      assert (P : 0 < slots (vars s) a) by lia. apply slots_In in P. apply In_nth_error in P. destruct P as [i E].
      specialize (N i). unfold get in N. rewrite E in N. discriminate. }
    lia.
  Qed.

  Lemma shared_not : forall s i a, get (vars s) i = Some a -> Shared s i -> shared (others s i) (H s a).
  Proof.
    intros s i a G (a' & j & NZ & NE & Gi & Gj). rewrite G in Gi. injection Gi as <-. split; [exact NZ|].
    apply (others_pos s i j); assumption.
  Qed.
  Lemma on_get : forall s i l, contents s i = Some l -> exists a, get (vars s) i = Some a.
  Proof. intros s i l C. unfold contents, buffer in C. destruct (get (vars s) i) as [a|]; [eauto|discriminate]. Qed.

  (** What SetItem and LockBuffer do to a string that shares its buffer: always the same damage. *)
  Theorem C21_SetItem_shared_exact : forall n s i j ch l, Reach false n s -> Shared s i -> contents s i = Some l -> j < length l ->
    exists s', run_op (OSetItem false i j ch) s = R s' (Some S_OK) /\ contents s' i = Some [].
  Proof.
    intros n s i j ch l RC SH C L. destruct (Reach_Rep _ _ _ RC) as (w & RP). destruct (contents_w _ _ _ _ _ _ RP C) as (k & W).
    destruct (Rep_own _ _ _ _ _ _ _ RP W) as (a & z & G & Li & O & Kz). cbn [StringModel.run_op]. rewrite (on_eq s i a _ G).
    pose proof (SetItem_spec junk enc0 _ _ false j ch l k z O (okz_open _ _ Kz)) as Q.
    destruct (SetItem junk enc0 false j ch (H s a)) as [s' []|s'|]; try contradiction.
    - destruct Q as (_ & [([->|NS] & _)|(_ & _ & -> & z' & Z & N)]).
      + cbn in L. lia.
      + exfalso. apply NS. apply shared_not; assumption.
      + eexists; split; [reflexivity|]. rewrite (Rep_contents false n _ _ i (Rep_put false n s w i (H s a) s' [] 0 z' RP Li eq_refl N Z)).
        unfold wput. rewrite Nat.eqb_refl. reflexivity.
    - lia.
    - destruct Q as (_ & ? & _). discriminate.
  Qed.
  Theorem C21_LockBuffer_shared_exact : forall n s i m l, Reach false n s -> Shared s i -> contents s i = Some l -> l <> [] ->
    exists s', run_op (OLock false i m) s = R s' (Some S_OK) /\ contents s' i = Some [].
  Proof.
    intros n s i m l RC SH C NL. destruct (Reach_Rep _ _ _ RC) as (w & RP). destruct (contents_w _ _ _ _ _ _ RP C) as (k & W).
    destruct (Rep_own _ _ _ _ _ _ _ RP W) as (a & z & G & Li & O & Kz). cbn [StringModel.run_op]. rewrite (on_eq s i a _ G). unfold bind.
    pose proof (Lock_op junk enc0 _ _ false m l k z O (okz_open _ _ Kz)) as Q.
    destruct (LockBuffer junk enc0 false m (H s a)) as [s' []|s'|]; try contradiction.
    - destruct Q as [(-> & _)|[([->|NS] & _)|(_ & _ & -> & z' & Z & N)]]; [contradiction|contradiction| |].
      + exfalso. apply NS. apply shared_not; assumption.
      + cbn. eexists; split; [reflexivity|]. rewrite (Rep_contents false n _ _ i (Rep_put false n s w i (H s a) s' [] 1 z' RP Li eq_refl N Z)).
        unfold wput. rewrite Nat.eqb_refl. reflexivity.
    - destruct Q as (? & _). discriminate.
    - destruct Q as (_ & M & _). exfalso. destruct (Own_load enc0 _ _ _ _ _ O) as (b & _ & _ & _ & _ & _ & _ & D).
      pose proof (shared_not s i a G SH) as [NZ SP]. destruct D as [[? _]|[(_ & T0 & _)|(_ & _ & ?)]]; [contradiction|lia|lia].
  Qed.

  (** ** C22 *)
  (** [x] is one of the characters to trim. *)
  Lemma drop_spec : forall tr p q, Forall (fun x => In x tr) p -> (q = [] \/ ~ In (hd 0 q) tr) -> drop tr (p ++ q) = q.
  Proof.
    intros tr p q F D. induction p as [|x p IH].
    - cbn [app]. destruct q as [|y q]; [reflexivity|]. cbn. destruct D as [?|D]; [discriminate|]. cbn in D.
      destruct (existsb (Nat.eqb y) tr) eqn:E; [|reflexivity]. apply existsb_exists in E. destruct E as (y' & I & Q). apply Nat.eqb_eq in Q. subst y'. contradiction.
    - inversion F as [|? ? Hx Hp]. subst. cbn. replace (existsb (Nat.eqb x) tr) with true; [apply IH; assumption|].
      symmetry. apply existsb_exists. exists x. split; [assumption|apply Nat.eqb_refl].
  Qed.
  Lemma hd_rev : forall l : list nat, hd 0 (rev l) = last l 0.
  Proof.
    intros l. destruct l as [|x l] using rev_ind; [reflexivity|]. rewrite rev_app_distr, last_last. reflexivity.
  Qed.
  Lemma body_spec : forall tr b r, Forall (fun x => In x tr) r -> (b = [] \/ ~ In (last b 0) tr) -> rev (drop tr (rev (b ++ r))) = b.
  Proof.
    intros tr b r F D. rewrite rev_app_distr. rewrite (drop_spec tr (rev r) (rev b)).
    - apply rev_involutive.
    - apply Forall_forall. intros x I. rewrite Forall_forall in F. apply F. apply in_rev. assumption.
    - destruct D as [->|D]; [left; reflexivity|]. right. rewrite hd_rev. assumption.
  Qed.

  (** TrimStart on [p ++ q], [p] the run: it leaves [q]. *)
  Theorem C22_TrimStart : forall n s i tr p q, Reach false n s -> contents s i = Some (p ++ q) ->
    Forall (fun x => In x tr) p -> (q = [] \/ ~ In (hd 0 q) tr) ->
    exists s', run_op (OTrimStart false i tr) s = R s' (Some S_OK) /\ contents s' i = Some q.
  Proof.
    intros n s i tr p q RC C F D. destruct (Reach_Rep _ _ _ RC) as (w & RP). destruct (contents_w _ _ _ _ _ _ RP C) as (k & W).
    pose proof (step_ok false n (OTrimStart false i tr) s w RP ltac:(split; [reflexivity|eauto]) ltac:(discriminate)) as G.
    destruct (run_op (OTrimStart false i tr) s) as [s' r|]; [|contradiction]. destruct G as (w' & A & RP').
    inversion A; subst. match goal with Y : w i = Some (?l1, ?k1) |- _ => rewrite W in Y; injection Y as <- <- end.
    eexists; split; [reflexivity|]. rewrite (Rep_contents _ _ _ _ i RP'). unfold wput. rewrite Nat.eqb_refl, drop_spec by assumption. reflexivity.
  Qed.
  Lemma TrimEnd_run : forall n s i tr l, Reach false n s -> contents s i = Some l ->
    exists s', run_op (OTrimEnd false i tr) s = R s' (Some S_OK) /\ contents s' i = Some (trim_end tr l).
  Proof.
    intros n s i tr l RC C. destruct (Reach_Rep _ _ _ RC) as (w & RP). destruct (contents_w _ _ _ _ _ _ RP C) as (k & W).
    pose proof (step_ok false n (OTrimEnd false i tr) s w RP ltac:(split; [reflexivity|eauto]) ltac:(discriminate)) as G.
    destruct (run_op (OTrimEnd false i tr) s) as [s' r|]; [|contradiction]. destruct G as (w' & A & RP').
    inversion A; subst. match goal with Y : w i = Some (?l1, ?k1) |- _ => rewrite W in Y; injection Y as <- <- end.
    eexists; split; [reflexivity|]. rewrite (Rep_contents _ _ _ _ i RP'). unfold wput. rewrite Nat.eqb_refl. reflexivity.
  Qed.
  (** The two cases in which TrimEnd is right: nothing to trim, and everything. *)
  Theorem C22_TrimEnd_partial : forall n s i tr l, Reach false n s -> contents s i = Some l ->
    (l = [] \/ ~ In (last l 0) tr \/ Forall (fun x => In x tr) l) ->
    exists s', run_op (OTrimEnd false i tr) s = R s' (Some S_OK) /\
      ((l = [] \/ ~ In (last l 0) tr) -> contents s' i = Some l) /\ (Forall (fun x => In x tr) l -> contents s' i = Some []).
  Proof.
    intros n s i tr l RC C D. destruct (TrimEnd_run n s i tr l RC C) as (s' & E & C'). exists s'. split; [assumption|]. rewrite C'. unfold trim_end. split.
    - intros D2. pose proof (body_spec tr l [] (Forall_nil _) D2) as B. rewrite app_nil_r in B. rewrite B. rewrite Nat.eqb_refl. destruct l; reflexivity.
    - intros F. pose proof (body_spec tr [] l F (or_introl eq_refl)) as B. cbn [app] in B. rewrite B. reflexivity.
  Qed.
  (** A non-empty body [b] and a non-empty run [r]: the last character of [b] is removed with all
      of the run but its last character, so the result is wrong for every such text. *)
  Theorem C22_TrimEnd_exact : forall n s i tr b r, Reach false n s -> contents s i = Some (b ++ r) ->
    b <> [] -> ~ In (last b 0) tr -> r <> [] -> Forall (fun x => In x tr) r ->
    exists s', run_op (OTrimEnd false i tr) s = R s' (Some S_OK) /\ contents s' i = Some (removelast b ++ [last r 0]) /\ contents s' i <> Some b.
  Proof.
    intros n s i tr b r RC C NB LB NR F. destruct (TrimEnd_run n s i tr (b ++ r) RC C) as (s' & E & C'). exists s'. split; [assumption|].
    assert (LR : last (b ++ r) 0 = last r 0).
    { rewrite (app_removelast_last 0 NR) at 1. rewrite app_assoc, last_last. reflexivity. }
    assert (X : trim_end tr (b ++ r) = removelast b ++ [last r 0]).
    { unfold trim_end. rewrite (body_spec tr b r F (or_intror LB)). rewrite LR.
      destruct b as [|x b]; [contradiction|]. destruct (Nat.eqb_spec (length (x :: b)) (length ((x :: b) ++ r))) as [Q|Q]; [|reflexivity].
      rewrite app_length in Q. destruct r; [contradiction|]. cbn in Q. lia. }
    rewrite X in C'. split; [assumption|]. rewrite C'. intros Q. injection Q as Q. apply LB.
    rewrite <- Q, last_last. rewrite Forall_forall in F. apply F. rewrite (app_removelast_last 0 NR) at 2. apply in_or_app. right. left. reflexivity.
  Qed.

  (** ** C23 *)
  (** In every reachable state: the buffer has cap + 1 characters, the length does not exceed the
      capacity, and there is a terminator in the buffer at or after the end of the text. *)
  Theorem C23_bounds : forall n s i, Reach false n s -> get (vars s) i <> None ->
    exists b, buffer s i = Some b /\ length (buf b) = cap b + 1 /\ size b <= cap b /\
      exists m, size b <= m /\ m <= cap b /\ nth m (buf b) 1 = 0.
  Proof.
    intros n s i RC NN. destruct (Reach_Rep _ _ _ RC) as (w & L & I & V). specialize (V i). unfold buffer.
    destruct (get (vars s) i) as [a|] eqn:G; [|contradiction]. destruct V as (l & k & z & Vw & _ & Kz).
    destruct (Nat.eqb_spec a 0) as [->|NZ].
    - eexists; split; [reflexivity|]. cbn. split; [reflexivity|]. split; [lia|]. exists 0. auto.
    - destruct (view_live _ _ _ NZ Vw) as (b & Hb & EV). cbn in Hb. exists b. split; [assumption|].
      pose proof (inv_b _ _ I a NZ) as B. cbn in B. rewrite Hb in B. destruct B as (LB & (C1 & C2) & _). injection EV as _ _ Ez.
      split; [lia|]. split; [assumption|]. destruct (stat_inv b) as (m & M1 & M2); [rewrite <- Ez; exact Kz|]. exists m. split; [assumption|]. split; [|assumption].
      destruct (Nat.le_gt_cases m (cap b)); [assumption|]. rewrite nth_overflow in M2 by lia. discriminate.
  Qed.
  (** In a clean history the terminator stands right after the text.  Missing: the operations on
      shared strings, where it is false. *)
  Theorem C23_terminated_partial : forall n s i, Reach true n s -> get (vars s) i <> None ->
    exists b, buffer s i = Some b /\ nth (size b) (buf b) 1 = 0 /\ size b < length (buf b).
  Proof.
    intros n s i RC NN. destruct (Reach_Rep _ _ _ RC) as (w & L & I & V). specialize (V i). unfold buffer.
    destruct (get (vars s) i) as [a|] eqn:G; [|contradiction]. destruct V as (l & k & z & Vw & _ & Kz).
    destruct (Nat.eqb_spec a 0) as [->|NZ].
    - eexists; split; [reflexivity|]. cbn. split; [reflexivity|lia].
    - destruct (view_live _ _ _ NZ Vw) as (b & Hb & EV). cbn in Hb. exists b. split; [assumption|].
      pose proof (inv_b _ _ I a NZ) as B. cbn in B. rewrite Hb in B. destruct B as (LB & (C1 & C2) & _). injection EV as _ _ Ez.
      split; [|lia]. cbn in Kz. subst z. destruct (stat_cases b) as [[_ Q]|[Q _]]; [assumption|congruence].
  Qed.

  (** ** C78: TransformEndian(StringA&&, StringB* ) into an empty string *)
  (** Whenever it succeeds with a non-empty source, the destination is left pointing to a block
      that has been freed. *)
  Theorem C78_TransformEndian_dangling : forall n s i j swap l, Reach false n s -> i <> j ->
    contents s i = Some [] -> contents s j = Some l -> l <> [] ->
    exists s' a, TransformEndianMove junk enc0 swap false i j s = R s' (Some S_OK) /\
      get (vars s') i = Some a /\ a <> 0 /\ heap s' a = None.
  Proof.
    intros n s i j swap l RC NE Ci Cj NL. destruct (Reach_Rep _ _ _ RC) as (w & RP).
    destruct (contents_w _ _ _ _ _ _ RP Ci) as (ki & Wi). destruct (contents_w _ _ _ _ _ _ RP Cj) as (k & Wj).
    destruct (Rep_own _ _ _ _ _ _ _ RP Wi) as (a & zi & Gi & Li & Oi & Kzi).
    destruct (Rep_own _ _ _ _ _ _ _ RP Wj) as (c & z & Gj & Lj & O & Kz).
    unfold TransformEndianMove, ptr_of. rewrite Gi, Gj.
    destruct (Own_load enc0 _ _ _ _ _ Oi) as (da & Ea & _ & Sa & _). cbn [ptr H] in Ea. unfold H in Ea. rewrite Ea.
    destruct (Own_load enc0 _ _ _ _ _ O) as (dc & Ec & _ & Sc & _). cbn [ptr H] in Ec.
    assert (Ec2 : load enc0 c (mkhs (heap s) (next s) a) = Ret (mkhs (heap s) (next s) a) dc).
    { revert Ec. unfold load, H. destruct (c =? 0); [congruence|]. cbn. destruct (heap s c); congruence. }
    rewrite Ec2, Sc, Sa. cbn [length].
    destruct (Nat.eqb_spec (length l) 0) as [Z|NZ]; [apply length_zero_iff_nil in Z; contradiction|]. cbn [Nat.eqb Nat.add].
    unfold bind at 1. fold (H s c). pose proof (LockBuffer_spec junk enc0 _ _ false (length l) l k z O (okz_open _ _ Kz)) as LP. unfold LockPost in LP.
    destruct (LockBuffer junk enc0 false (length l) (H s c)) as [s1 []|s1|]; [|destruct LP; discriminate|destruct LP as (_ & _ & ?); lia|contradiction].
    destruct LP as [(? & _)|(b & RW)]; [contradiction|]. cbn [negb]. unfold this, bind at 1.
    destruct RW as [X S [P Kb] [C1 C2] FB _]. pose proof (Excl_ok _ _ _ X) as (Lb & _). pose proof X as (I & T0 & NZp & Hb).
    assert (RD : read enc0 (ptr s1) 0 (length l) s1 = Ret s1 l).
    { unfold read, bind. rewrite (load_nz enc0 _ _ _ NZp Hb). destruct (Nat.leb_spec (0 + length l) (length (buf b))); [|lia]. rewrite skipn_O, FB. reflexivity. }
    unfold bind at 1. rewrite RD.
    destruct (write_excl enc0 s1 (others s j) (ptr s1) b 0 (map swap l) I T0 NZp Hb) as (E2 & I2 & S2); [rewrite map_length; lia|].
    unfold bind at 1. rewrite E2. set (b2 := mkblk _ _ _ (blit _ _ _) _) in *. set (s2 := setb s1 (ptr s1) (Some b2)) in *.
    assert (X2 : Excl (others s j) s2 b2) by (split; [exact I2|split; [exact T0|split; [exact NZp|apply hp_setb]]]).
    destruct (UnlockN_spec enc0 (others s j) s2 b2 k (length l) X2 P Kb ltac:(cbn [cap b2]; lia)) as (s3 & b3 & E3 & X3 & S3 & B3 & P3 & _).
    unfold bind. rewrite E3. unfold ret at 1.
    destruct X3 as (I3 & T3 & NZ3 & Hb3). set (p := ptr s3) in *.
    set (s4 := ST (hp s3) (nx s3) (set (vars s) j (Some 0))).
    assert (G4 : get (vars s4) i = Some a) by (cbn; rewrite get_set_neq by auto; assumption).
    rewrite (on_eq s4 i a _ G4).
    assert (Hp4 : hp (H s4 a) p = Some b3) by exact Hb3.
    rewrite (load_nz enc0 p (H s4 a) b3 NZ3 Hp4). set (b5 := mkblk _ _ _ _ enc0).
    rewrite (store_nz p (H s4 a) b3 b5 NZ3 Hp4). unfold Attach, this, point, bind. cbn [ptr setb H].
    set (s6 := mkhs _ _ p).
    assert (AP : a <> p). { intros ->. pose proof (others_pos s j i p ltac:(auto) Gi). lia. }
    assert (OK3 : blk_ok b3 1).
    { pose proof (inv_b _ _ I3 p NZ3) as B. rewrite Hb3, add_self, T3 in B. exact B. }
    assert (I6 : Inv s6 (add a (add p (slots (set (set (vars s) j None) i None))))).
    { apply (Inv_heap (setb s3 p (Some b5))); [|reflexivity|reflexivity].
      apply (Inv_setb s3 (add p (others s j)) _ p b3); auto.
      - intros x NX NP. unfold others.
        pose proof (slots_mine (set (vars s) j None) i a x ltac:(rewrite get_set_neq by auto; assumption)) as Q. unfold add in *. lia.
      - replace (add a (add p (slots (set (set (vars s) j None) i None))) p) with 1; [destruct OK3 as (K1 & K2 & K3); split; [exact K1|split; [exact K2|exact K3]]|].
        rewrite add_other by auto. rewrite add_self. pose proof (slots_mine (set (vars s) j None) i a p ltac:(rewrite get_set_neq by auto; assumption)) as Q.
        unfold others in T3. rewrite T3, add_other in Q by auto. lia. }
    destruct (Release_spec enc0 s6 a _ I6) as (s7 & E7 & I7 & S7 & P7 & H7 & _). rewrite E7.
    assert (Hb7 : hp s7 p = Some b5) by (rewrite H7 by auto; unfold s6; cbn; unfold upd; rewrite Nat.eqb_refl; reflexivity).
    destruct (Release_spec enc0 s7 p _ I7) as (s8 & E8 & I8 & S8 & P8 & _ & _). rewrite E8. cbn.
    eexists; exists p. split; [reflexivity|]. cbn [vars heap]. rewrite P8, P7. cbn [ptr s6].
    split; [apply get_set_eq; rewrite set_length; eapply get_lt; exact Gi|]. split; [assumption|].
    pose proof (inv_b _ _ I8 p NZ3) as B. destruct (hp s8 p) as [b8|]; [|reflexivity]. exfalso.
    destruct B as (_ & _ & B). 
    pose proof (slots_mine (set (vars s) j None) i a p ltac:(rewrite get_set_neq by auto; assumption)) as Q.
    unfold others in T3. rewrite T3, add_other in Q by auto. lia.
  Qed.

  (** ** C79: the code page of an ANSI string *)
  Definition encoding (s : st) (i : nat) : option nat :=
    match buffer s i with Some b => Some (if ansi then enc b else enc0) | None => None end.
  (** A copy of a string that is not locked has its code page.  Missing: every operation that
      makes a new buffer, where it is lost (see the refutation). *)
  Theorem C79_copy_partial : forall n s i j oom a b, Reach false n s -> i < n -> get (vars s) i = None ->
    get (vars s) j = Some a -> buffer s j = Some b -> (0 <= iref b)%Z ->
    exists s', run_op (ONewCopy oom i j) s = R s' (Some S_OK) /\ encoding s' i = encoding s j /\ encoding s' j = encoding s j.
  Proof.
    intros n s i j oom a b RC Li Gi Gj B P. destruct (Reach_Rep _ _ _ RC) as (w & RP).
    assert (Wi : w i = None) by (destruct RP as (_ & _ & V); specialize (V i); rewrite Gi in V; exact V).
    cbn [StringModel.run_op]. unfold ptr_of. rewrite Gj.
    destruct (make_eq _ n s w i (CopyCtor junk enc0 oom a) RP Li Wi) as (_ & _ & ->).
    assert (NE : i <> j) by congruence. assert (Lj : j < length (vars s)) by (eapply get_lt; eassumption).
    assert (L : length (vars s) = n) by apply RP.
    unfold buffer in B. rewrite Gj in B. unfold CopyCtor, bind, AddRef, IsReadOnly, load. cbn [hp H].
    destruct (Nat.eqb_spec a 0) as [->|NZ].
    - injection B as <-. cbn [IsLocked empty_blk iref]. change (2 ^ 31 - 1 <? 0)%Z with false. cbn.
      eexists; split; [reflexivity|]. unfold encoding, buffer. cbn [vars]. rewrite Gj.
      rewrite get_set_eq by lia. rewrite get_set_neq by auto. rewrite Gj. auto.
    - rewrite B. unfold IsLocked. destruct (Z.ltb_spec (iref b) 0); [lia|]. unfold bind, load. cbn [hp H]. destruct (Nat.eqb_spec a 0); [contradiction|]. rewrite B.
      destruct (Z.ltb_spec (iref b) 0); [lia|]. unfold store. cbn [hp H]. destruct (Nat.eqb_spec a 0); [contradiction|]. rewrite B. cbn.
      eexists; split; [reflexivity|]. unfold encoding, buffer. cbn [vars heap]. rewrite Gj.
      rewrite get_set_eq by lia. rewrite get_set_neq by auto. rewrite Gj. destruct (Nat.eqb_spec a 0); [contradiction|].
      unfold upd. rewrite Nat.eqb_refl, B. auto.
  Qed.
End Thms.

(** ** C23: the arithmetic of sizes *)
Local Open Scope Z_scope.
Lemma align16u_ok : forall n, 0 <= n -> n + 15 < W -> align16u n = (n + 15) / 16 * 16.
Proof.
  intros n P L. unfold align16u. rewrite Z.mod_small by lia.
  replace ((-16) mod W) with (Z.shiftl (Z.ones 60) 4) by reflexivity.
  apply Z.bits_inj'. intros i Hi. rewrite Z.land_spec, Z.shiftl_spec by lia.
  change 16 with (2 ^ 4). rewrite <- Z.shiftr_div_pow2, <- Z.shiftl_mul_pow2, Z.shiftl_spec by lia.
  destruct (Z.ltb_spec i 4) as [L4|L4].
  - rewrite !(Z.testbit_neg_r _ (i - 4)) by lia. apply andb_false_r.
  - rewrite Z.shiftr_spec by lia. replace (i - 4 + 4) with i by lia.
    destruct (Z.ltb_spec (i - 4) 60) as [L6|L6].
    + rewrite Z.ones_spec_low by lia. apply andb_true_r.
    + rewrite Z.ones_spec_high by lia. rewrite andb_false_r. symmetry.
      destruct (Z.eq_dec (n + 15) 0) as [->|NZ]; [apply Z.testbit_0_l|]. apply Z.bits_above_log2; [lia|].
      apply Z.lt_le_trans with 64; [|lia]. apply Z.log2_lt_pow2; [lia|]. exact L.
Qed.
(** As long as the size in bytes fits, the block is as large as the recorded capacity says and
      the capacity is sufficient. *)
Theorem C23_alloc_size_partial : forall sz n, sz = 1 \/ sz = 2 \/ sz = 4 -> 0 <= n -> header + (n + 16) * sz < W ->
  let '(bytes, cap) := alloc_size sz n in n <= cap /\ bytes = header + (cap + 1) * sz.
Proof.
  intros sz n S P L. unfold alloc_size, header in *. assert (n + 16 < W) by nia.
  rewrite (Z.mod_small (n + 1)) by lia. rewrite align16u_ok by lia.
  set (m := (n + 1 + 15) / 16 * 16). assert (M : n + 1 <= m <= n + 16) by (unfold m; pose proof (Z.div_mod (n + 1 + 15) 16); pose proof (Z.mod_pos_bound (n + 1 + 15) 16); lia).
  clearbody m. rewrite (Z.mod_small (m - 1)) by lia. rewrite Z.mod_small by (destruct S as [->|[->| ->]]; lia). split; lia.
Qed.
Theorem C23_realloc_size_partial : forall sz old n, sz = 1 \/ sz = 2 \/ sz = 4 -> 0 <= n -> 0 <= old ->
  header + (n + 16) * sz < W -> header + (old + old / 2 + 16) * sz < W ->
  let '(bytes, cap) := realloc_size sz old n in n <= cap /\ old + old / 2 <= cap + 1 /\ bytes = header + (cap + 1) * sz.
Proof.
  intros sz old n S P Po L Lo. unfold realloc_size, header in *. assert (n + 16 < W) by nia.
  assert (O2 : 0 <= old / 2) by (apply Z.div_pos; lia). assert (old + old / 2 + 16 < W) by nia.
  rewrite (Z.mod_small (n + 1)) by lia. rewrite (Z.mod_small (old + old / 2)) by lia. cbn zeta.
  set (q := if old + old / 2 <? n + 1 then n + 1 else old + old / 2).
  assert (Q : n + 1 <= q /\ old + old / 2 <= q /\ (q = n + 1 \/ q = old + old / 2)) by (unfold q; destruct (Z.ltb_spec (old + old / 2) (n + 1)); lia).
  clearbody q. rewrite align16u_ok by lia.
  set (m := (q + 15) / 16 * 16). assert (M : q <= m <= q + 15) by (unfold m; pose proof (Z.div_mod (q + 15) 16); pose proof (Z.mod_pos_bound (q + 15) 16); lia).
  clearbody m. rewrite (Z.mod_small (m - 1)) by lia. rewrite Z.mod_small by (destruct S as [->|[->| ->]]; lia). repeat split; lia.
Qed.
(** Beyond, the multiplication wraps: the block is smaller than its capacity.  The length is
      an argument of the public LockBuffer. *)
Theorem C23_alloc_size_refuted : exists n, 0 <= n < W /\
  let '(bytes, cap) := alloc_size 2 n in n <= cap /\ bytes < header + (cap + 1) * 2 /\ bytes = 24.
Proof. exists (2 ^ 63 - 1). vm_compute. repeat split; discriminate. Qed.
Theorem C23_alloc_size_max_refuted : alloc_size 1 (W - 1) = (24, W - 1).
Proof. vm_compute. reflexivity. Qed.
Local Close Scope Z_scope.

(** * Concrete cases *)
Definition jk (_ _ : nat) : nat := 7.
Definition uni (e : nat) : bool := e =? 9.
Notation play := (run jk 1 true uni (init 3)).
Notation cont := (contents 1).

Example ex_share : (* copy, append, assign, remove, substring, destruction of the original *)
  match play [ONewLit false 0 [1; 2; 3]; ONewCopy false 1 0; OAppend false 1 [4]; OSetItem false 1 0 9; ONewCopy false 2 0; OAssign false 0 1;
              ORemove false 0 1 2; ODelete 1; OTrimStart false 2 [1; 2]] with
  | Some (s, rs) => cont s 0 = Some [9; 4] /\ cont s 1 = None /\ cont s 2 = Some [3] /\ Forall (eq (Some S_OK)) rs
  | None => False
  end.
Proof. vm_compute. repeat constructor. Qed.
Example ex_clean : clean jk 1 true uni (init 2) [ONewLit false 0 [1; 2]; OSetItem false 0 1 5; ONewCopy false 1 0].
Proof.
  set (o := ONewLit false 0 [1; 2]).
  assert (V : match run_op jk 1 true uni o (init 2) with R s1 _ => vars s1 = [Some 1; None] | Bad => False end) by (vm_compute; reflexivity).
  cbn [clean]. split; [exact I|]. destruct (run_op jk 1 true uni o (init 2)) as [s1 r|]; [|exact I]. split.
  - intros (a & j & NZ & NE & G1 & G2). rewrite V in G2. destruct j as [|[|[|j]]]; cbn in G2; try discriminate; auto.
  - destruct (run_op jk 1 true uni (OSetItem false 0 1 5) s1) as [s2 r2|]; [|exact I]. split; [exact I|].
    destruct (run_op jk 1 true uni (ONewCopy false 1 0) s2); exact I.
Qed.
Example ex_safe : safe true 2 nothing [ONewLit true 0 [1; 2]; ONew 1; OClear 1].
Proof.
  cbn. split; [split; [lia|reflexivity]|]. intros r w1 w1' A E. assert (E1 : w1' 1 = None) by (rewrite <- E; inversion A; reflexivity).
  split; [split; [lia|assumption]|]. intros r2 w2 w2' A2 E2. split; [|auto]. exists [], 0. rewrite <- E2. inversion A2. reflexivity.
Qed.
Example ex_locked : (* lock, write, a copy made meanwhile has its own buffer *)
  match play [ONewLit false 0 [1; 2]; OLock false 0 2; OWrite 0 1 5; ONewCopy false 1 0; OUnlockN 0 1; OUnlock 0] with
  | Some (s, rs) => cont s 0 = Some [1] /\ cont s 1 = Some [1; 5] /\ get (vars s) 0 = Some 1 /\ get (vars s) 1 = Some 2 /\ nth 5 rs (Some S_OK) = None
  | None => False
  end.
Proof. vm_compute. repeat constructor. Qed.
Example ex_trim : (* "ab--": what TrimEnd('-') leaves *)
  match play [ONewLit false 0 [97; 98; 45; 45]; ONewLit false 1 [97; 98]; ONewLit false 2 [45; 45; 97]; OTrimEnd false 0 [45]; OTrimEnd false 1 [45]; OTrimStart false 2 [45]] with
  | Some (s, _) => cont s 0 = Some [97; 45] /\ cont s 1 = Some [97; 98] /\ cont s 2 = Some [97]
  | None => False
  end.
Proof. vm_compute. repeat constructor. Qed.
Example ex_sizes : alloc_size 2 20 = (88, 31)%Z /\ realloc_size 2 31 40 = (120, 47)%Z.
Proof. vm_compute. auto. Qed.

(** Refutations.  The claim of C21 for SetItem, LockBuffer and SetANSIEncoding: *)
Theorem C21_shared_refuted :
  (match play [ONewLit false 0 [97; 98]; ONewCopy false 1 0; OSetItem false 1 0 99] with
   | Some (s, rs) => cont s 1 = Some [] /\ cont s 0 = Some [97; 98] /\ nth 2 rs None = Some S_OK | None => False end) /\
  (match play [ONewLit false 0 [97; 98]; ONewCopy false 1 0; OLock false 1 2; OUnlock 1] with
   | Some (s, rs) => cont s 1 = Some [] /\ nth 2 rs None = Some S_OK | None => False end) /\
  (match play [ONewLit false 0 [97; 98]; ONewCopy false 1 0; OEnc false 1 5] with
   | Some (s, rs) => cont s 1 = Some [] /\ nth 2 rs None = Some S_OK | None => False end).
Proof. vm_compute. repeat constructor. Qed.
(** Appending a string to itself reads the block that growing it has freed. *)
Theorem C21_self_append_refuted : play [ONewLit false 0 [1; 2; 3; 4; 5; 6; 7; 8]; OAppendStr false 0 0] = None.
Proof. vm_compute. reflexivity. Qed.
(** Remove does not test the result of LockBuffer. *)
Theorem C21_remove_oom_refuted : play [ONewLit false 0 [1; 2; 3]; ONewCopy false 1 0; ORemove true 1 0 1] = None.
Proof. vm_compute. reflexivity. Qed.
(** Assignment to a locked string frees the locked buffer; a move-assignment from a locked one
    lets an exception out of a noexcept function. *)
Theorem C21_assign_locked_refuted :
  play [ONewLit false 0 [1; 2]; ONewLit false 1 [3; 4]; OLock false 0 2; OAssign false 0 1; OWrite 0 0 9] = None /\
  play [ONewLit false 0 [1; 2]; ONewLit false 1 [3; 4]; OLock false 1 2; OAssignMove 0 1] = None.
Proof. vm_compute. auto. Qed.
Theorem C22_TrimEnd_refuted :
  match play [ONewLit false 0 [97; 32]; OTrimEnd false 0 [32]] with Some (s, _) => cont s 0 = Some [32] | None => False end.
Proof. vm_compute. reflexivity. Qed.
(** After SetItem on a shared string the text (empty) is not terminated. *)
Theorem C23_terminated_refuted :
  match play [ONewLit false 0 [97; 98]; ONewCopy false 1 0; OSetItem false 1 0 99] with
  | Some (s, _) => match buffer 1 s 1 with Some b => size b = 0 /\ nth (size b) (buf b) 1 = 99 | None => False end
  | None => False
  end.
Proof. vm_compute. auto. Qed.
Example ex_transform : (* the destination refers to block 1, which is gone *)
  match play [ONewLit false 0 [1; 2]; ONew 1] with
  | Some (s, _) => match TransformEndianMove jk 1 (fun x => 256 * x) false 1 0 s with
                   | R s' _ => get (vars s') 1 = Some 1 /\ heap s' 1 = None | Bad => False end
  | None => False
  end.
Proof. vm_compute. auto. Qed.
(** Appending to a shared ANSI string, and copying a locked one, reset the code page. *)
Theorem C79_append_refuted :
  (match play [ONewLit false 0 [97]; OEnc false 0 5; ONewCopy false 1 0; OAppend false 1 [98]] with
   | Some (s, _) => encoding 1 true s 0 = Some 5 /\ encoding 1 true s 1 = Some 1 /\ cont s 1 = Some [97; 98] | None => False end) /\
  (match play [ONewLit false 0 [97]; OEnc false 0 5; OLock false 0 1; ONewCopy false 1 0] with
   | Some (s, _) => encoding 1 true s 0 = Some 5 /\ encoding 1 true s 1 = Some 1 /\ cont s 1 = Some [97] | None => False end).
Proof. vm_compute. repeat split. Qed.

Print Assumptions C21_values_partial.
Print Assumptions C21_no_ub_partial.
Print Assumptions C21_others_unchanged.
Print Assumptions C21_spec_functional.
Print Assumptions C21_counts.
Print Assumptions C21_no_leak.
Print Assumptions C21_SetItem_shared_exact.
Print Assumptions C21_LockBuffer_shared_exact.
Print Assumptions C21_shared_refuted.
Print Assumptions C21_self_append_refuted.
Print Assumptions C21_remove_oom_refuted.
Print Assumptions C21_assign_locked_refuted.
Print Assumptions C22_TrimStart.
Print Assumptions C22_TrimEnd_partial.
Print Assumptions C22_TrimEnd_exact.
Print Assumptions C22_TrimEnd_refuted.
Print Assumptions C23_bounds.
Print Assumptions C23_terminated_partial.
Print Assumptions C23_terminated_refuted.
Print Assumptions C23_alloc_size_partial.
Print Assumptions C23_realloc_size_partial.
Print Assumptions C23_alloc_size_refuted.
Print Assumptions C23_alloc_size_max_refuted.
Print Assumptions C78_TransformEndian_dangling.
Print Assumptions C79_copy_partial.
Print Assumptions C79_append_refuted.
