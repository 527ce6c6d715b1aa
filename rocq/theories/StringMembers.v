(** The members of the string model that are built on LockBuffer and UnlockBuffer. *)
From Coq Require Import Arith ZArith Lia Bool List.
From Verif Require Import Slots SlotsProofs StringModel StringProofs.
Import ListNotations.

Lemma blit_firstn : forall bf off l n, off + length l <= n -> n <= length bf -> firstn n (blit bf off l) = blit (firstn n bf) off l.
Proof.
  intros bf off l n H L. unfold blit. rewrite !firstn_app, !firstn_firstn, firstn_length.
  replace (Nat.min n off) with off by lia. replace (Nat.min off n) with off by lia. f_equal.
  replace (Nat.min off (length bf)) with off by lia. rewrite (firstn_all2 (n := n - off) l) by lia. f_equal.
  rewrite skipn_firstn_comm. f_equal. lia.
Qed.

Definition rem (l : list nat) (j c : nat) : list nat := firstn j l ++ skipn (j + c) l.
Definition replaced (l : list nat) (j ch : nat) : list nat := firstn j l ++ [ch] ++ skipn (j + 1) l.

Section Members.
  Variable junk : nat -> nat -> nat.
  Variable enc0 : nat.
  Variable ansi : bool.
  Variable unicode : nat -> bool.
  Notation load := (load enc0).
  Notation read := (read enc0).
  Notation write := (write enc0).
  Notation LockBuffer := (LockBuffer junk enc0).
  Notation UnlockBufferN := (UnlockBufferN enc0).
  Notation UnlockBuffer := (UnlockBuffer enc0).
  Notation Clear := (Clear enc0).
  Notation copy_in := (copy_in enc0).
  Notation SetString := (SetString junk enc0).
  Notation Append := (Append junk enc0).
  Notation AppendStr := (AppendStr junk enc0).
  Notation SetStringCopy := (SetStringCopy junk enc0).
  Notation SetItem := (SetItem junk enc0).
  Notation Edit := (Edit junk enc0).
  Notation SetANSIEncoding := (SetANSIEncoding junk enc0 ansi unicode).
  Notation Remove := (Remove junk enc0 ansi unicode).
  Notation Slice := (Slice junk enc0 ansi unicode).
  Notation TrimStart := (TrimStart junk enc0 ansi unicode).
  Notation TrimEnd := (TrimEnd junk enc0 ansi unicode).
  Notation Trim := (Trim junk enc0 ansi unicode).
  Notation CopyCtor := (CopyCtor junk enc0).
  Notation ViewCtor := (ViewCtor junk enc0 ansi unicode).
  Notation Substring := (Substring junk enc0 ansi unicode).

  (** What LockBuffer without a length, a change inside the text and UnlockBuffer() leave. *)
  Definition Bare (t : nat -> nat) (s s' : hs) (l l' : list nat) (k : nat) (z : status) : Prop :=
    ((l = [] \/ ~ shared t s) /\ exists z', (z' = z \/ z' = Good) /\ Ends t s s' (l', k, z')) \/
    (l <> [] /\ shared t s /\ k = 0 /\ exists z', z' <> Open /\ Ends t s s' ([], 0, z')).

  Lemma SetItem_spec : forall t s oom j ch l k z, Own t s (l, k, z) -> z <> Open ->
    match SetItem oom j ch s with
    | Ret s' S_OK => j < length l /\ Bare t s s' l (replaced l j ch) k z
    | Ret s' E_BOUNDS => length l <= j /\ s' = s
    | Ret s' E_OUTOFMEMORY => j < length l /\ oom = true /\ k = 0 /\ s' = s
    | _ => False
    end.
  Proof.
    clear ansi unicode.
    intros t s oom j ch l k z O NO. unfold StringModel.SetItem, this, bind at 1 2.
    destruct (Own_load enc0 _ _ _ _ _ O) as (b0 & E & T & Sz & K & St & Cb & _). rewrite E, Sz.
    destruct (Nat.leb_spec (length l) j) as [L|L]; [cbn; auto|].
    unfold bind at 1. pose proof (LockBuffer_spec junk enc0 t s oom 0 l k z O NO) as LP. unfold LockPost in LP.
    destruct (LockBuffer oom 0 s) as [s1 []|s1|]; [| | |contradiction].
    - destruct LP as [(_ & -> & _)|(b & RW)]; [cbn in L; lia|]. cbn [negb]. unfold bind at 1.
      destruct RW as [X S [P Kb] [C1 C2] FB SZ].
      pose proof (Excl_ok _ _ _ X) as (Lb & _). pose proof X as (I & T0 & NZ & H).
      destruct (write_excl enc0 s1 t (ptr s1) b j [ch] I T0 NZ H ltac:(cbn; lia)) as (E2 & I2 & S2).
      unfold bind at 1. rewrite E2. set (b2 := mkblk _ _ _ (blit _ _ _) _) in *. set (s2 := setb s1 (ptr s1) (Some b2)) in *.
      assert (X2 : Excl t s2 b2) by (split; [exact I2|split; [exact T0|split; [exact NZ|apply hp_setb]]]).
      destruct (Unlock0_spec enc0 t s2 b2 k X2 P Kb) as (s3 & E3 & O3 & S3).
      unfold bind. rewrite E3. unfold ret. split; [assumption|].
      assert (S4 : Same t s s3) by (eapply Same_trans; [exact S|eapply Same_trans; [exact S2|exact S3]]).
      destruct SZ as [(SZ & Zs & D)|(SZ & NL & K0 & SH & N0)].
      + left. split; [assumption|]. exists (stat b2). split.
        * replace (stat b2) with (stat b); [assumption|]. symmetry. apply stat_eq; cbn [size buf b2]; auto.
          -- destruct Zs as [Zs|Zs]; rewrite Zs; [assumption|discriminate].
          -- intros m Lm _. apply blit_nth_after; cbn [length]; lia.
          -- lia.
        * split; [|assumption]. replace (replaced l j ch) with (text b2); [exact O3|].
          unfold text. cbn [size buf b2]. rewrite SZ, blit_firstn by (cbn [length]; lia). rewrite FB. reflexivity.
      + right. clear K. subst k. split; [assumption|]. split; [assumption|]. split; [reflexivity|]. exists (stat b2). split.
        * apply (stat_not_open b2 (length l)); cbn [size buf b2]; [lia|]. rewrite blit_nth_after by (cbn [length]; lia). assumption.
        * split; [|assumption]. replace (text b2) with (@nil nat) in O3; [exact O3|]. unfold text. cbn [size b2]. rewrite SZ. reflexivity.
    - cbn. intuition.
    - destruct LP as (_ & _ & ?). lia.
  Qed.

  Lemma AppendStr_spec : forall t s oom c l0 k z l m y, Own t s (l0, k, z) -> z <> Open -> view s c = Some (l, m, y) ->
    1 <= t c -> (* the other string, or this one while it is shared *)
    match AppendStr oom c s with
    | Ret s' S_OK => (l = [] /\ s' = s) \/ (l <> [] /\ l0 = [] /\ c = ptr s /\ s' = s) \/
                     (l <> [] /\ l0 = [] /\ ((m = 0 /\ Ends t s s' (l, 0, y)) \/ (1 <= m /\ Ends t s s' (l, k, Good)))) \/
                     (l <> [] /\ l0 <> [] /\ Ends t s s' (l0 ++ l, k, Good))
    | Ret s' E_OUTOFMEMORY => oom = true /\ k = 0 /\ (s' = s \/ Ends t s s' ([], k, Good) /\ l0 = [])
    | Exn s' => 1 <= k /\ (s' = s \/ Ends t s s' ([], k, Good) /\ l0 = [])
    | _ => False
    end.
  Proof.
    clear ansi unicode.
    intros t s oom c l0 k z l m y O NO V Lc. pose proof O as [I _].
    destruct (load_view enc0 s (add (ptr s) t) c l m y I (add_pos _ _ _ Lc) V) as (b & E & T & Sz & K & St & Lb & Cb & D).
    unfold StringModel.AppendStr, bind at 1. rewrite E, Sz.
    destruct (Nat.eqb_spec (length l) 0) as [Z|NZ]; [cbn; left; split; [apply length_zero_iff_nil; assumption|reflexivity]|].
    assert (NL : l <> []) by (intros ->; apply NZ; reflexivity).
    destruct (Own_load enc0 _ _ _ _ _ O) as (b0 & E0 & T0 & Sz0 & _). unfold this, bind at 1 2. rewrite E0, Sz0.
    destruct (Nat.eqb_spec (length l0) 0) as [Z0|NZ0].
    - apply length_zero_iff_nil in Z0. clear T0. subst l0.
      pose proof (SetStringCopy_spec junk enc0 t s oom c [] k z l m y O (add_pos _ _ _ Lc) V) as SC.
      destruct (SetStringCopy oom c s) as [s' []|s'|]; try contradiction.
      + destruct SC as [(-> & ->)|[(NE & -> & N)|(NE & M1 & N)]]; [right; left; auto|right; right; left; auto|right; right; left; auto].
      + destruct SC as (_ & -> & -> & N). auto 6.
      + destruct SC as (_ & K1 & N). auto 6.
    - assert (NL0 : l0 <> []) by (intros ->; apply NZ0; reflexivity).
      pose proof (Append_spec junk enc0 t s oom l0 k z (At c 0 (length l)) l O NO) as AS. cbn [srcv] in AS.
      specialize (AS ltac:(split; [assumption|]; exists l, m, y; rewrite skipn_O, firstn_all; auto)).
      destruct (Append oom (At c 0 (length l)) s) as [s' []|s'|]; try contradiction.
      + destruct AS as [[? _]|[_ N]]; [contradiction|]. auto 6.
      + intuition.
      + intuition.
  Qed.

  Lemma Edit_spec : forall t s oom n off l0 k z l, Own t s (l0, k, z) -> z <> Open -> off <= length l0 -> off + length l <= n ->
    match Edit oom n off l s with
    | Ret s' S_OK => Ends t s s' (firstn off l0 ++ l, k, Good)
    | Ret s' E_OUTOFMEMORY => oom = true /\ k = 0 /\ s' = s
    | Exn s' => 1 <= k /\ s' = s
    | _ => False
    end.
  Proof.
    clear ansi unicode.
    intros t s oom n off l0 k z l O NO L1 L2. unfold StringModel.Edit, bind at 1.
    pose proof (LockBuffer_spec junk enc0 t s oom n l0 k z O NO) as LP. unfold LockPost in LP.
    destruct (LockBuffer oom n s) as [s1 []|s1|]; [| | |contradiction].
    - cbn [negb]. unfold this, bind at 1. destruct LP as [(-> & -> & -> & P & I & S)|(b & RW)].
      + assert (off = 0) as -> by (cbn in L1; lia). assert (l = []) as -> by (apply length_zero_iff_nil; lia). cbn [length Nat.eqb].
        unfold bind, ret at 1, StringModel.UnlockBufferN, this, bind, IsReadOnly. rewrite P. cbn. split; [|assumption].
        split; rewrite P; [assumption|reflexivity].
      + destruct (Nat.eqb_spec (length l) 0) as [Z|NZ].
        * apply length_zero_iff_nil in Z. subst l. cbn [length] in *. rewrite Nat.add_0_r, app_nil_r in *. unfold bind at 1, ret at 1.
          destruct RW as [X S [P Kb] [C1 C2] FB _]. pose proof (Excl_ok _ _ _ X) as (Lb & _).
          destruct (UnlockN_spec enc0 t s1 b k off X P Kb ltac:(lia)) as (s3 & b3 & E3 & X3 & S3 & B3 & _).
          unfold bind. rewrite E3. unfold ret. split; [|eapply Same_trans; [exact S|exact S3]].
          replace (firstn off l0, k, Good) with (bview b3); [apply Excl_own; assumption|]. rewrite B3, <- FB, firstn_firstn. repeat f_equal. lia.
        * destruct (fill_spec enc0 t s s1 b l0 k z n off (Lit l) l RW eq_refl L1 L2) as (s3 & b' & E3 & N3 & _).
          cbn [StringModel.copy_in] in E3. rewrite E3. exact N3.
    - cbn. intuition.
    - intuition.
  Qed.

  Lemma SetANSI_spec : forall t s oom e l k z, Own t s (l, k, z) -> z <> Open ->
    match SetANSIEncoding oom e s with
    | Ret s' S_OK => s' = s \/ Bare t s s' l l k z
    | Ret s' E_OUTOFMEMORY => oom = true /\ k = 0 /\ s' = s
    | Ret s' E_BOUNDS => False
    | Ret s' _ => s' = s
    | Exn s' => 1 <= k /\ s' = s
    | UB => False
    end.
  Proof.
    intros t s oom e l k z O NO. unfold StringModel.SetANSIEncoding, this, bind at 1 2.
    destruct (Own_load enc0 _ _ _ _ _ O) as (b0 & E & T & Sz & K & St & Cb & _). rewrite E.
    destruct (GetEncoding enc0 ansi b0 =? e); [cbn; auto|]. destruct (negb ansi); [reflexivity|]. destruct (unicode e); [reflexivity|].
    unfold bind at 1. pose proof (LockBuffer_spec junk enc0 t s oom 1 l k z O NO) as LP. unfold LockPost in LP.
    destruct (LockBuffer oom 1 s) as [s1 []|s1|]; [| | |contradiction].
    - destruct LP as [(? & _)|(b & RW)]; [discriminate|]. cbn [negb]. unfold bind at 1.
      destruct RW as [X S [P Kb] [C1 C2] FB SZ].
      pose proof (Excl_ok _ _ _ X) as (Lb & Sb & R). pose proof X as (I & T0 & NZ & H).
      unfold bind at 1. rewrite (load_nz enc0 _ _ _ NZ H).
      set (b2 := mkblk (iref b) (cap b) (size b) (buf b) e).
      destruct (Excl_set t s1 b b2 X) as (E2 & X2 & S2); [split; [assumption|split; [assumption|exact R]]|].
      unfold bind at 1. rewrite E2. set (s2 := setb s1 (ptr s1) (Some b2)) in *.
      destruct (Unlock0_spec enc0 t s2 b2 k X2 P Kb) as (s3 & E3 & O3 & S3).
      unfold bind. rewrite E3. unfold ret. right.
      assert (S4 : Same t s s3) by (eapply Same_trans; [exact S|eapply Same_trans; [exact S2|exact S3]]).
      destruct SZ as [(SZ & Zs & D)|(SZ & NL & K0 & SH & N0)].
      + left. split; [assumption|]. exists (stat b2). split; [exact Zs|]. split; [|assumption].
        replace l with (text b2); [exact O3|]. unfold text. cbn [size buf b2]. rewrite SZ. exact FB.
      + right. clear K. subst k. split; [assumption|]. split; [assumption|]. split; [reflexivity|]. exists (stat b2). split.
        * apply (stat_not_open b2 (length l)); cbn [size buf b2]; [lia|assumption].
        * split; [|assumption]. replace (text b2) with (@nil nat) in O3; [exact O3|]. unfold text. cbn [size b2]. rewrite SZ. reflexivity.
    - cbn. intuition.
    - intuition.
  Qed.

  (** Removal *)
  Definition Shrunk (t : nat -> nat) (s s' : hs) (l' : list nat) (k : nat) (z : status) : Prop :=
    exists z', (z' = z \/ z' = Good) /\ Ends t s s' (l', k, z').
  Lemma rem_0 : forall l j, rem l j 0 = l.
  Proof. intros. unfold rem. rewrite Nat.add_0_r. apply firstn_skipn. Qed.
  Lemma rem_out : forall l j c, length l <= j -> rem l j c = l.
  Proof. intros. unfold rem. rewrite firstn_all2 by lia. rewrite skipn_all2 by lia. apply app_nil_r. Qed.
  Lemma rem_min : forall l j c, j <= length l -> rem l j (Nat.min c (length l - j)) = rem l j c.
  Proof.
    intros l j c L. unfold rem. f_equal. destruct (Nat.le_ge_cases c (length l - j)) as [H|H].
    - f_equal. lia.
    - rewrite !skipn_all2 by lia. reflexivity.
  Qed.

  Lemma Remove_spec : forall t s j c l k z, Own t s (l, k, z) -> z <> Open ->
    exists s', Remove false j c s = Ret s' tt /\ Shrunk t s s' (rem l j c) k z.
  Proof.
    intros t s j c l k z O NO. unfold StringModel.Remove, this, bind at 1 2.
    destruct (Own_load enc0 _ _ _ _ _ O) as (b0 & E & T & Sz & K & St & Cb & D). rewrite E, Sz.
    destruct (Nat.leb_spec (length l) j) as [L|L].
    { exists s. split; [reflexivity|]. rewrite rem_out by assumption. exists z. split; [auto|]. apply Ends_refl. assumption. }
    rewrite <- (rem_min l j c) by lia. set (c' := Nat.min c (length l - j)).
    destruct (Nat.eqb_spec c' 0) as [Zc|NZc].
    { exists s. split; [reflexivity|]. rewrite Zc, rem_0. exists z. split; [auto|]. apply Ends_refl. assumption. }
    destruct (Nat.eqb_spec (length l - c') 0) as [Zn|NZn].
    { destruct (Clear_spec enc0 t s l k z O) as (s1 & E1 & N1). exists s1. split; [exact E1|]. exists Good. split; [auto|].
      replace (rem l j c') with (@nil nat); [exact N1|]. unfold rem. assert (j = 0) as -> by lia. rewrite skipn_all2 by lia. reflexivity. }
    assert (RL : length (rem l j c') = length l - c') by (unfold rem; rewrite app_length, firstn_length, skipn_length; lia).
    destruct D as [[Zp Bp]|[(NZ & T0 & R & X0)|(SH & R & K0)]].
    - subst b0. cbn in Sz. lia.
    - (* in place *)
      unfold IsShared. destruct (Z.ltb_spec 1 (iref b0)); [lia|]. unfold bind at 1.
      pose proof (LockBuffer_spec junk enc0 t s false (length l - c') l k z O NO) as LP. unfold LockPost in LP.
      destruct (LockBuffer false (length l - c') s) as [s1 []|s1|]; [| | |contradiction].
      + destruct LP as [(? & _)|(b & RW)]; [contradiction|]. cbn [negb]. unfold this, bind at 1.
        destruct RW as [X S [P Kb] [C1 C2] FB SZ]. pose proof (Excl_ok _ _ _ X) as (Lb & _). pose proof X as (I & T1 & NZ1 & H1).
        assert (RD : read (ptr s1) (j + c') (length l - c' - j) s1 = Ret s1 (skipn (j + c') l)).
        { unfold StringModel.read, bind. rewrite (load_nz enc0 _ _ _ NZ1 H1). destruct (Nat.leb_spec (j + c' + (length l - c' - j)) (length (buf b))); [|lia].
          unfold ret. f_equal. rewrite <- FB at 2. rewrite skipn_firstn_comm. f_equal. lia. }
        unfold bind at 1. rewrite RD.
        destruct (write_excl enc0 s1 t (ptr s1) b j (skipn (j + c') l) I T1 NZ1 H1) as (E2 & I2 & S2); [rewrite skipn_length; lia|].
        unfold bind. rewrite E2. set (b2 := mkblk _ _ _ (blit _ _ _) _) in *. set (s2 := setb s1 (ptr s1) (Some b2)) in *.
        assert (X2 : Excl t s2 b2) by (split; [exact I2|split; [exact T1|split; [exact NZ1|apply hp_setb]]]).
        destruct (UnlockN_spec enc0 t s2 b2 k (length l - c') X2 P Kb ltac:(cbn; lia)) as (s3 & b3 & E3 & X3 & S3 & B3 & _).
        rewrite E3. exists s3. split; [reflexivity|]. exists Good. split; [auto|].
        split; [|eapply Same_trans; [exact S|eapply Same_trans; [exact S2|exact S3]]].
        replace (rem l j c', k, Good) with (bview b3); [apply Excl_own; assumption|]. rewrite B3. f_equal. f_equal.
        cbn [buf b2]. replace (length l - c') with (j + length (skipn (j + c') l)) by (rewrite skipn_length; lia).
        rewrite blit_upto by lia. unfold rem. f_equal. rewrite <- FB. rewrite firstn_firstn. f_equal. lia.
      + destruct LP; discriminate.
      + destruct LP as (_ & _ & ?). lia.
    - (* a new buffer *)
      unfold IsShared. destruct (Z.ltb_spec 1 (iref b0)); [|lia]. clear K. subst k.
      set (n := length l - c') in *. set (t' := add (ptr s) t). set (s0 := mkhs (hp s) (nx s) 0).
      pose proof O as [I V].
      assert (O0 : Own t' s0 ([], 0, Good)).
      { split; [|reflexivity]. cbn [ptr s0]. apply (Inv_heap s); [|reflexivity|reflexivity]. eapply Inv_ext; [exact I|].
        intros x NX. symmetry. apply add_other. assumption. }
      assert (Tp : 1 <= t' (ptr s)) by (unfold t'; rewrite add_self; lia).
      unfold bind at 1, with_tmp. fold s0. unfold bind at 1.
      pose proof (LockBuffer_spec junk enc0 t' s0 false n [] 0 Good O0 ltac:(discriminate)) as LP. unfold LockPost in LP.
      destruct (LockBuffer false n s0) as [s1 []|s1|]; [| | |contradiction].
      2:{ destruct LP; discriminate. } 2:{ destruct LP as (_ & ? & _). lia. }
      destruct LP as [(? & _)|(b & RW)]; [contradiction|]. cbn [negb]. unfold bind at 1.
      destruct RW as [X S [P Kb] [C1 C2] _ _]. pose proof (Excl_ok _ _ _ X) as (Lb & _).
      assert (V0 : view s0 (ptr s) = Some (l, 0, z)) by exact V.
      assert (SV1 : srcv t' s1 (At (ptr s) 0 j) (firstn j l)).
      { split; [assumption|]. exists l, 0, z. rewrite S by assumption. repeat split; auto. lia. }
      destruct (copy_in_spec enc0 t' s1 b (At (ptr s) 0 j) (firstn j l) 0 X SV1) as (E2 & X2 & S2); [rewrite firstn_length; lia|].
      unfold bind at 1. rewrite E2. set (b2 := mkblk _ _ _ (blit _ _ _) _) in *. set (s2 := setb s1 (ptr s1) (Some b2)) in *.
      assert (SV2 : srcv t' s2 (At (ptr s) (j + c') (n - j)) (skipn (j + c') l)).
      { split; [assumption|]. exists l, 0, z. split; [rewrite S2, S by assumption; assumption|]. split; [lia|].
        rewrite firstn_all2; [reflexivity|]. rewrite skipn_length. lia. }
      change (ptr s1) with (ptr s2).
      destruct (copy_in_spec enc0 t' s2 b2 _ _ j X2 SV2) as (E3 & X3 & S3); [rewrite skipn_length; cbn [cap b2]; lia|].
      unfold bind at 1. rewrite E3. set (b3 := mkblk (iref b2) _ _ (blit _ _ _) _) in *. set (s3 := setb s2 (ptr s2) (Some b3)) in *.
      destruct (UnlockN_spec enc0 t' s3 b3 0 n X3 P Kb ltac:(cbn [cap b3 b2]; lia)) as (s4 & b4 & E4 & X4 & S4 & B4 & P4 & _).
      unfold bind at 1. rewrite E4.
      assert (BV : bview b4 = (rem l j c', 0, Good)).
      { rewrite B4. f_equal. f_equal. cbn [buf b3 b2]. 
        replace n with (j + length (skipn (j + c') l)) by (rewrite skipn_length; lia).
        rewrite blit_upto.
        - unfold rem. f_equal. change 0 with 0. pose proof (blit_upto (buf b) 0 (firstn j l) ltac:(lia)) as BU.
          rewrite firstn_length in BU. replace (0 + Nat.min j (length l)) with j in BU by lia. exact BU.
        - rewrite blit_length; rewrite ?firstn_length; lia. }
      assert (O4 : Own t' s4 (rem l j c', 0, Good)) by (rewrite <- BV; apply Excl_own; assumption).
      assert (S04 : Same t' s0 s4) by (eapply Same_trans; [exact S|eapply Same_trans; [exact S2|eapply Same_trans; [exact S3|exact S4]]]).
      assert (NS : ~ shared t' s4).
      { intros [_ Q]. destruct X4 as (_ & Q2 & _). lia. }
      assert (FIN : forall s5 z5, (z5 = Good) -> Ends t' s4 s5 (rem l j c', 0, z5) ->
        exists s', Attach enc0 (ptr s5) (mkhs (hp s5) (nx s5) (ptr s)) = Ret s' tt /\ Shrunk t s s' (rem l j c') 0 z).
      { intros s5 z5 -> [O5 S5]. destruct O5 as [I5 V5].
        destruct (Attach_spec enc0 t (mkhs (hp s5) (nx s5) (ptr s)) (ptr s5) (rem l j c', 0, Good)) as (s6 & E6 & [O6 S6] & _).
        { apply (Inv_heap s5); [|reflexivity|reflexivity]. exact I5. } { exact V5. }
        exists s6. split; [exact E6|]. exists Good. split; [auto|]. split; [exact O6|].
        intros x Lx. rewrite S6 by assumption. change (view s5 x = view s x).
        rewrite S5 by (apply add_pos; assumption). rewrite S04 by (apply add_pos; assumption). reflexivity. }
      destruct ansi eqn:AN.
      + pose proof (SetANSI_spec t' s4 false (enc b0) (rem l j c') 0 Good O4 ltac:(discriminate)) as SA. rewrite AN in SA.
        destruct (StringModel.SetANSIEncoding junk enc0 true unicode false (enc b0) s4) as [s5 r|s5|]; [|destruct SA; lia|contradiction].
        assert (N5 : Ends t' s4 s5 (rem l j c', 0, Good)).
        { destruct r; [destruct SA as [->|[(_ & z' & Hz & N)|(_ & Q & _)]]|contradiction|destruct SA; discriminate|subst s5|subst s5].
          - apply Ends_refl. assumption.
          - replace Good with z' by (destruct Hz; assumption). exact N.
          - contradiction.
          - apply Ends_refl. assumption.
          - apply Ends_refl. assumption. }
        apply (FIN s5 Good eq_refl N5).
      + unfold ret at 1. apply (FIN s4 Good eq_refl). apply Ends_refl. assumption.
  Qed.

  Lemma Shrunk_trans : forall t s s1 s2 l1 l2 k z, z <> Open -> Shrunk t s s1 l1 k z ->
    (forall z', z' <> Open -> Own t s1 (l1, k, z') -> Shrunk t s1 s2 l2 k z') -> Shrunk t s s2 l2 k z.
  Proof.
    intros t s s1 s2 l1 l2 k z NO (z1 & Z1 & O1 & S1) F.
    destruct (F z1) as (z2 & Z2 & O2 & S2); [destruct Z1; subst z1; [assumption|discriminate]|assumption|].
    exists z2. split; [destruct Z1, Z2; subst; auto|]. split; [assumption|]. eapply Same_trans; eassumption.
  Qed.
  Lemma Shrunk_not_open : forall t s s1 l k z, z <> Open -> Shrunk t s s1 l k z -> exists z1, z1 <> Open /\ Own t s1 (l, k, z1).
  Proof. intros t s s1 l k z NO (z1 & Z1 & O1 & _). exists z1. split; [destruct Z1; subst; [assumption|discriminate]|assumption]. Qed.
  Lemma Clear_shrunk : forall t s l k z, Own t s (l, k, z) -> exists s', Clear s = Ret s' tt /\ Shrunk t s s' [] k z.
  Proof. intros t s l k z O. destruct (Clear_spec enc0 t s l k z O) as (s' & E & N). exists s'. split; [assumption|]. exists Good. auto. Qed.

  Definition middle (l : list nat) (st en : nat) : list nat := firstn (length l - st - en) (skipn st l).
  Lemma Slice_spec : forall t s st en l k z, Own t s (l, k, z) -> z <> Open ->
    exists s', Slice false st en s = Ret s' tt /\ Shrunk t s s' (middle l st en) k z.
  Proof.
    intros t s st en l k z O NO. unfold StringModel.Slice, this, bind at 1 2.
    destruct (Own_load enc0 _ _ _ _ _ O) as (b0 & E & T & Sz & _). rewrite E, Sz.
    destruct (Nat.leb_spec (length l) (st + en)) as [L|L].
    { destruct (Clear_shrunk t s l k z O) as (s' & E' & N'). exists s'. split; [assumption|]. unfold middle.
      replace (length l - st - en) with 0 by lia. assumption. }
    set (l1 := firstn (length l - en) l). assert (L1 : length l1 = length l - en) by (unfold l1; rewrite firstn_length; lia).
    assert (A : exists s1, (if 0 <? en then Remove false (length l - en) en else ret tt) s = Ret s1 tt /\ Shrunk t s s1 l1 k z).
    { destruct (Nat.ltb_spec 0 en).
      - destruct (Remove_spec t s (length l - en) en l k z O NO) as (s1 & E1 & N1). exists s1. split; [assumption|].
        replace l1 with (rem l (length l - en) en); [assumption|]. unfold rem, l1. rewrite skipn_all2 by lia. apply app_nil_r.
      - exists s. split; [reflexivity|]. exists z. split; [auto|]. unfold l1. rewrite firstn_all2 by lia. apply Ends_refl. assumption. }
    destruct A as (s1 & E1 & N1). unfold bind. rewrite E1.
    destruct (Shrunk_not_open _ _ _ _ _ _ NO N1) as (z1 & NO1 & O1).
    assert (MD : middle l st en = skipn st l1).
    { unfold middle, l1. rewrite skipn_firstn_comm. f_equal. lia. }
    destruct (Nat.ltb_spec 0 st).
    - destruct (Remove_spec t s1 0 st l1 k z1 O1 NO1) as (s2 & E2 & N2). exists s2. split; [assumption|].
      eapply Shrunk_trans; [assumption|exact N1|]. intros z' NO' O'.
      destruct (Remove_spec t s1 0 st l1 k z' O' NO') as (s3 & E3 & N3). rewrite E2 in E3. injection E3 as <-.
      rewrite MD. exact N3.
    - exists s1. split; [reflexivity|]. rewrite MD. replace st with 0 by lia. exact N1.
  Qed.

  Lemma read_own : forall t s l k z, Own t s (l, k, z) -> read (ptr s) 0 (length l) s = Ret s l.
  Proof.
    intros t s l k z [I V]. rewrite (read_view enc0 s _ _ _ _ _ 0 (length l) I (ltac:(rewrite add_self; lia)) V (le_n _)).
    rewrite skipn_O, firstn_all. reflexivity.
  Qed.
  Lemma TrimStart_spec : forall t s tr l k z, Own t s (l, k, z) -> z <> Open ->
    exists s', TrimStart false tr s = Ret s' tt /\ Shrunk t s s' (skipn (lead tr l) l) k z.
  Proof.
    intros t s tr l k z O NO. destruct tr as [|x tr].
    { exists s. split; [reflexivity|]. replace (lead [] l) with 0 by (destruct l; reflexivity). exists z. split; [auto|]. apply Ends_refl. assumption. }
    unfold StringModel.TrimStart, this, bind at 1 2. destruct (Own_load enc0 _ _ _ _ _ O) as (b0 & E & T & Sz & _). rewrite E, Sz.
    unfold bind. rewrite (read_own _ _ _ _ _ O). apply (Remove_spec t s 0 (lead (x :: tr) l) l k z O NO).
  Qed.
  (** What TrimEnd leaves. *)
  Definition trimmed (tr l : list nat) : list nat :=
    match tr with
    | [] => l
    | _ => let n := keep tr l (length l) in if n =? 0 then [] else rem l (n - 1) (length l - n)
    end.
  Lemma TrimEnd_spec : forall t s tr l k z, Own t s (l, k, z) -> z <> Open ->
    exists s', TrimEnd false tr s = Ret s' tt /\ Shrunk t s s' (trimmed tr l) k z.
  Proof.
    intros t s tr l k z O NO. destruct tr as [|x tr].
    { exists s. split; [reflexivity|]. exists z. split; [auto|]. apply Ends_refl. assumption. }
    unfold StringModel.TrimEnd, this, bind at 1 2. destruct (Own_load enc0 _ _ _ _ _ O) as (b0 & E & T & Sz & _). rewrite E, Sz.
    unfold bind. rewrite (read_own _ _ _ _ _ O). unfold trimmed.
    destruct (Nat.eqb_spec (keep (x :: tr) l (length l)) 0).
    - apply (Clear_shrunk t s l k z O).
    - apply (Remove_spec t s _ _ l k z O NO).
  Qed.
  Lemma Trim_spec : forall t s tr l k z, Own t s (l, k, z) -> z <> Open ->
    exists s', Trim false tr s = Ret s' tt /\ Shrunk t s s' (skipn (lead tr (trimmed tr l)) (trimmed tr l)) k z.
  Proof.
    intros t s tr l k z O NO. destruct (TrimEnd_spec t s tr l k z O NO) as (s1 & E1 & N1).
    unfold StringModel.Trim, bind. rewrite E1. destruct (Shrunk_not_open _ _ _ _ _ _ NO N1) as (z1 & NO1 & O1).
    destruct (TrimStart_spec t s1 tr _ k z1 O1 NO1) as (s2 & E2 & N2). exists s2. split; [assumption|].
    eapply Shrunk_trans; [assumption|exact N1|]. intros z' NO' O'.
    destruct (TrimStart_spec t s1 tr _ k z' O' NO') as (s3 & E3 & N3). rewrite E2 in E3. injection E3 as <-. exact N3.
  Qed.

  (** ** Constructors: the object starts at the static string. *)
  Lemma SetString_new : forall t s oom x l, Own t s ([], 0, Good) -> ptr s = 0 -> srcv t s x l ->
    match SetString oom x s with
    | Ret s' S_OK => Ends t s s' (l, 0, Good) /\ (ptr s' = 0 \/ exists b, Excl t s' b)
    | Ret s' E_OUTOFMEMORY => oom = true /\ s' = s
    | _ => False
    end.
  Proof.
    intros t s oom x l O P V.
    assert (EC : Clear s = Ret s tt) by (destruct s as [h n p]; cbn in P; subst p; reflexivity).
    unfold StringModel.SetString, bind at 1. rewrite EC. rewrite (srcv_len _ _ _ _ V).
    destruct (Nat.eqb_spec (length l) 0) as [Z|NZ].
    { cbn. apply length_zero_iff_nil in Z. subst l. split; [apply Ends_refl; assumption|auto]. }
    unfold bind at 1. pose proof (LockBuffer_spec junk enc0 t s oom (length l) [] 0 Good O ltac:(discriminate)) as LP. unfold LockPost in LP.
    destruct (LockBuffer oom (length l) s) as [s2 []|s2|]; [| | |contradiction].
    - destruct LP as [(? & _)|(b & RW)]; [contradiction|]. cbn [negb]. unfold this, bind at 1.
      destruct (fill_spec enc0 t s s2 b [] 0 Good (length l) 0 x l RW V (Nat.le_0_l _) (le_n _)) as (s3 & b' & E3 & N3 & X3 & _).
      cbn [firstn app] in N3. cbn [Nat.add] in E3. rewrite E3. split; [assumption|]. right. exists b'. assumption.
    - destruct LP as (-> & -> & _). cbn. auto.
    - destruct LP as (_ & ? & _). lia.
  Qed.
  Lemma CopyCtor_spec : forall t s oom c l m y, Own t s ([], 0, Good) -> ptr s = 0 -> view s c = Some (l, m, y) -> 1 <= t c ->
    match CopyCtor oom c s with
    | Ret s' S_OK => (m = 0 /\ Ends t s s' (l, 0, y)) \/ (1 <= m /\ Ends t s s' (l, 0, Good))
    | Ret s' E_OUTOFMEMORY => oom = true /\ 1 <= m /\ s' = s
    | _ => False
    end.
  Proof.
    clear ansi unicode.
    intros t s oom c l m y O P V Lc. pose proof O as [I _].
    destruct (load_view enc0 s (add (ptr s) t) c l m y I (add_pos _ _ _ Lc) V) as (b & E & T & Sz & K & St & Lb & Cb & D).
    unfold StringModel.CopyCtor, bind at 1. rewrite E. unfold IsLocked. destruct (Z.ltb_spec (iref b) 0) as [N|N].
    - pose proof (lockn_neg _ N) as Kn. assert (1 <= m) by lia. rewrite Sz.
      pose proof (SetString_new t s oom (At c 0 (length l)) l O P) as SS. cbn [srcv] in SS.
      specialize (SS ltac:(split; [assumption|]; exists l, m, y; rewrite skipn_O, firstn_all; auto)).
      destruct (SetString oom (At c 0 (length l)) s) as [s' []|s'|]; try contradiction; intuition.
    - assert (M0 : m = 0) by (rewrite <- K; apply lockn_pos; lia). clear K. subst m.
      destruct (AddRef_spec enc0 s c (add (ptr s) t) l y I (add_pos _ _ _ Lc) V) as (s1 & E1 & I1 & V1 & P1).
      unfold bind. rewrite E1. cbn. left. split; [reflexivity|]. split.
      + split; [|exact (eq_trans (V1 c) V)]. cbn [ptr]. apply (Inv_heap s1); [|reflexivity|reflexivity].
        eapply Inv_ext; [exact I1|]. intros z NZ. unfold add. rewrite P. destruct (Nat.eqb_spec z 0); [contradiction|]. lia.
      + intros z Lz. apply V1.
  Qed.
  Lemma ViewCtor_spec : forall t s oom x e l, Own t s ([], 0, Good) -> ptr s = 0 -> srcv t s x l ->
    match ViewCtor oom x e s with
    | Ret s' S_OK => Ends t s s' (l, 0, Good)
    | Ret s' E_OUTOFMEMORY => oom = true /\ s' = s
    | _ => False
    end.
  Proof.
    intros t s oom x e l O P V. pose proof (SetString_new t s oom x l O P V) as SS. unfold StringModel.ViewCtor, bind at 1.
    destruct (SetString oom x s) as [s1 []|s1|]; try contradiction; [|exact SS].
    destruct SS as [[O1 S1] X1]. unfold bind at 1. destruct ansi eqn:AN; [|split; assumption].
    pose proof (SetANSI_spec t s1 oom e l 0 Good O1 ltac:(discriminate)) as SA. rewrite AN in SA.
    destruct (StringModel.SetANSIEncoding junk enc0 true unicode oom e s1) as [s5 r|s5|]; [|destruct SA; lia|contradiction].
    cbn. destruct r; [destruct SA as [->|[(_ & z' & Hz & O5 & S5)|(_ & [Q1 Q2] & _)]]|contradiction|destruct SA as (_ & _ & ->)|subst s5|subst s5].
    - split; assumption.
    - split; [|eapply Same_trans; eassumption]. replace Good with z' by (destruct Hz; assumption). assumption.
    - destruct X1 as [?|(b & _ & X1 & _)]; [contradiction|lia].
    - split; assumption.
    - split; assumption.
    - split; assumption.
  Qed.
  Lemma Substring_spec : forall t s oom c p n l m y, Own t s ([], 0, Good) -> ptr s = 0 -> view s c = Some (l, m, y) -> 1 <= t c ->
    match Substring oom c p n s with
    | Ret s' S_OK => exists z, (z = y \/ z = Good) /\ Ends t s s' (firstn n (skipn p l), 0, z)
    | Ret s' E_OUTOFMEMORY => oom = true /\ s' = s
    | _ => False
    end.
  Proof.
    intros t s oom c p n l m y O P V Lc. pose proof O as [I _].
    destruct (load_view enc0 s (add (ptr s) t) c l m y I (add_pos _ _ _ Lc) V) as (b & E & T & Sz & K & St & Lb & Cb & D).
    unfold StringModel.Substring, bind at 1. rewrite E, Sz.
    destruct (Nat.eqb_spec p 0) as [P0|NP]; destruct (Nat.leb_spec (length l) n) as [Ln|Ln]; cbn [andb].
    { rewrite P0, skipn_O, firstn_all2 by assumption. pose proof (CopyCtor_spec t s oom c l m y O P V Lc) as CC.
      destruct (CopyCtor oom c s) as [s' []|s'|]; try contradiction; [|intuition].
      destruct CC as [[_ N]|[_ N]]; [exists y|exists Good]; auto. }
    all: assert (VC : forall o q e, o + q <= length l -> firstn q (skipn o l) = firstn n (skipn p l) ->
      match ViewCtor oom (At c o q) e s with
      | Ret s' S_OK => exists z, (z = y \/ z = Good) /\ Ends t s s' (firstn n (skipn p l), 0, z)
      | Ret s' E_OUTOFMEMORY => oom = true /\ s' = s
      | _ => False
      end) by
     (intros o q e Lq Q; pose proof (ViewCtor_spec t s oom (At c o q) e (firstn q (skipn o l)) O P) as VC; cbn [srcv] in VC;
      assert (SV : 1 <= t c /\ exists lp kp zp, view s c = Some (lp, kp, zp) /\ o + q <= length lp /\ firstn q (skipn o l) = firstn q (skipn o lp))
        by (split; [assumption|]; exists l, m, y; auto);
      specialize (VC SV); destruct (ViewCtor oom (At c o q) e s) as [s' []|s'|]; try contradiction; [|assumption];
      exists Good; rewrite <- Q; auto).
    all: destruct (Nat.ltb_spec p (length l)) as [Lp|Lp]; apply VC; try lia.
    all: try (rewrite (skipn_all2 (n := p)) by lia; rewrite firstn_nil, firstn_O; reflexivity).
    all: try (f_equal; lia).
    all: destruct (Nat.le_ge_cases (length l - p) n); [|f_equal; lia].
    all: rewrite !firstn_all2; rewrite ?skipn_length; try lia; reflexivity.
  Qed.

  (** ** Holding the buffer locked. *)
  Lemma Lock_op : forall t s oom n l k z, Own t s (l, k, z) -> z <> Open ->
    match LockBuffer oom n s with
    | Ret s' true => (l = [] /\ k = 0 /\ n = 0 /\ ptr s' = 0 /\ Ends t s s' ([], 0, Good)) \/
                     ((l = [] \/ ~ shared t s) /\ exists z', (z' = z \/ z' = Good) /\ Ends t s s' (l, S k, z')) \/
                     (l <> [] /\ shared t s /\ k = 0 /\ exists z', z' <> Open /\ Ends t s s' ([], 1, z'))
    | Ret s' false => oom = true /\ s' = s /\ k = 0
    | Exn s' => s' = s /\ 1 <= k /\ length l < n
    | UB => False
    end.
  Proof.
    intros t s oom n l k z O NO. pose proof (LockBuffer_spec junk enc0 t s oom n l k z O NO) as LP. unfold LockPost in LP.
    destruct (LockBuffer oom n s) as [s1 []|s1|]; auto.
    destruct LP as [(-> & -> & -> & P & I & S)|(b & RW)].
    - left. rewrite P. repeat split; auto; try apply I; rewrite ?P; auto; apply I.
    - right. destruct RW as [X S [P Kb] [C1 C2] FB SZ]. pose proof (Excl_own _ _ _ X) as OW. unfold bview in OW. rewrite Kb in OW.
      destruct SZ as [(SZ & Zs & D)|(SZ & NL & -> & SH & N0)].
      + left. split; [assumption|]. exists (stat b). split; [assumption|]. split; [|assumption].
        replace l with (text b); [assumption|]. unfold text. rewrite SZ. assumption.
      + right. split; [assumption|]. split; [assumption|]. split; [reflexivity|]. exists (stat b). split.
        * apply (stat_not_open b (length l)); [lia|assumption].
        * split; [|assumption]. replace (@nil nat) with (text b); [assumption|]. unfold text. rewrite SZ. reflexivity.
  Qed.
  Lemma Write_op : forall t s j ch l k z, Own t s (l, S k, z) -> z <> Open -> j < length l ->
    exists s', WriteLocked enc0 j ch s = Ret s' S_OK /\ Ends t s s' (replaced l j ch, S k, z).
  Proof.
    intros t s j ch l k z O NO L. destruct (Own_load enc0 _ _ _ _ _ O) as (b & E & T & Sz & K & St & Cb & D).
    unfold WriteLocked, this, bind at 1 2. rewrite E, Sz.
    assert (X : Excl t s b /\ (iref b < 0)%Z).
    { destruct D as [[_ ->]|[(_ & _ & R & X)|(_ & R & ?)]]; [discriminate| |discriminate]. split; [assumption|].
      destruct (Z.ltb_spec (iref b) 0); [assumption|]. rewrite lockn_pos in K by assumption. discriminate. }
    destruct X as [X NG]. unfold IsLocked. destruct (Z.ltb_spec (iref b) 0); [|lia]. destruct (Nat.ltb_spec j (length l)); [|lia]. cbn [andb].
    pose proof X as (I & T0 & NZ & Hb). pose proof (Excl_ok _ _ _ X) as (Lb & _).
    destruct (write_excl enc0 s t (ptr s) b j [ch] I T0 NZ Hb ltac:(cbn; lia)) as (E2 & I2 & S2).
    unfold bind. rewrite E2. eexists; split; [reflexivity|]. set (b2 := mkblk _ _ _ (blit _ _ _) _) in *. split; [|exact S2].
    assert (X2 : Excl t (setb s (ptr s) (Some b2)) b2) by (split; [exact I2|split; [exact T0|split; [exact NZ|apply hp_setb]]]).
    replace (replaced l j ch, S k, z) with (bview b2); [apply Excl_own; assumption|]. unfold bview. f_equal; [f_equal|].
    - unfold text. cbn [size buf b2]. rewrite blit_firstn by (cbn [length]; lia). change (firstn (size b) (buf b)) with (text b). rewrite T. reflexivity.
    - exact K.
    - rewrite <- St. apply stat_eq; cbn [size buf b2]; auto; [rewrite St; assumption|intros x Lx _; apply blit_nth_after; cbn [length]; lia|lia].
  Qed.
  Lemma Unlock_op : forall t s l k z, Own t s (l, k, z) ->
    match UnlockBuffer s with
    | Ret s' _ => (ptr s = 0 /\ s' = s) \/ (exists k', k = S k' /\ Ends t s s' (l, k', z))
    | Exn s' => k = 0 /\ s' = s
    | UB => False
    end.
  Proof.
    intros t s l k z O. destruct (Own_load enc0 _ _ _ _ _ O) as (b & E & T & Sz & K & St & Cb & D).
    destruct (Nat.eq_dec (ptr s) 0) as [Z|NZ].
    { unfold StringModel.UnlockBuffer, this, bind, IsReadOnly. rewrite Z. cbn. auto. }
    destruct k as [|k].
    - unfold StringModel.UnlockBuffer, this, bind at 1, IsReadOnly. destruct (Nat.eqb_spec (ptr s) 0); [contradiction|].
      unfold Unlock, bind. rewrite E. destruct (Z.leb_spec 0 (iref b)); [cbn; auto|]. rewrite lockn_neg in K by assumption. lia.
    - assert (X : Excl t s b /\ (iref b < 0)%Z).
      { destruct D as [[? _]|[(_ & _ & R & X)|(_ & R & ?)]]; [contradiction| |discriminate]. split; [assumption|].
        destruct (Z.ltb_spec (iref b) 0); [assumption|]. rewrite lockn_pos in K by assumption. discriminate. }
      destruct X as [X NG]. destruct (Unlock0_spec enc0 t s b k X NG K) as (s' & E' & N'). rewrite E'. right. exists k. split; [reflexivity|].
      rewrite T, St in N'. exact N'.
  Qed.
  Lemma UnlockN_op : forall t s n l k z, Own t s (l, k, z) ->
    match UnlockBufferN n s with
    | Ret s' _ => (ptr s = 0 /\ s' = s) \/ (exists k' l', k = S k' /\ (n <= length l -> l' = firstn n l) /\ length l' <= n /\
                    (length l <= n -> firstn (length l) l' = l) /\ Ends t s s' (l', k', Good))
    | Exn s' => k = 0 /\ s' = s
    | UB => False
    end.
  Proof.
    intros t s n l k z O. destruct (Own_load enc0 _ _ _ _ _ O) as (b & E & T & Sz & K & St & Cb & D).
    destruct (Nat.eq_dec (ptr s) 0) as [Z|NZ].
    { unfold StringModel.UnlockBufferN, this, bind, IsReadOnly. rewrite Z. cbn. auto. }
    destruct k as [|k].
    - unfold StringModel.UnlockBufferN, this, bind at 1, IsReadOnly. destruct (Nat.eqb_spec (ptr s) 0); [contradiction|].
      unfold bind. rewrite E. unfold IsLocked. destruct (Z.ltb_spec (iref b) 0); [|cbn; auto]. rewrite lockn_neg in K by assumption. lia.
    - assert (X : Excl t s b /\ (iref b < 0)%Z).
      { destruct D as [[? _]|[(_ & _ & R & X)|(_ & R & ?)]]; [contradiction| |discriminate]. split; [assumption|].
        destruct (Z.ltb_spec (iref b) 0); [assumption|]. rewrite lockn_pos in K by assumption. discriminate. }
      destruct X as [X NG].
      assert (C : UnlockBufferN n s = UnlockBufferN (Nat.min n (cap b)) s).
      { assert (G : forall q, UnlockBufferN q s = (store (ptr s) (mkblk (iref b) (cap b) (Nat.min q (cap b)) (buf b) (enc b)) ;;;
                                                 write (ptr s) (Nat.min q (cap b)) [0] ;;; Unlock enc0 (ptr s)) s).
        { intros q. unfold StringModel.UnlockBufferN, this, bind at 1, IsReadOnly. destruct (Nat.eqb_spec (ptr s) 0); [contradiction|].
          unfold bind at 1. rewrite E. unfold IsLocked. destruct (Z.ltb_spec (iref b) 0); [|lia]. cbn [negb].
          destruct (Nat.ltb_spec (cap b) q).
          - replace (Nat.min q (cap b)) with (cap b) by lia. reflexivity.
          - replace (Nat.min q (cap b)) with q by lia. reflexivity. }
        rewrite !G. replace (Nat.min (Nat.min n (cap b)) (cap b)) with (Nat.min n (cap b)) by lia. reflexivity. }
      rewrite C. destruct (UnlockN_spec enc0 t s b k (Nat.min n (cap b)) X NG K ltac:(lia)) as (s' & b' & E' & X' & S' & B' & _).
      rewrite E'. right. exists k, (firstn (Nat.min n (cap b)) (buf b)). unfold text in T. pose proof (Excl_ok _ _ _ X) as (Lb & _).
      split; [reflexivity|]. split; [|split; [|split]].
      + intros L. rewrite <- T, firstn_firstn. f_equal. lia.
      + rewrite firstn_length. lia.
      + intros L. rewrite firstn_firstn. rewrite <- T at 2. f_equal. lia.
      + split; [|assumption]. rewrite <- B'. apply Excl_own. assumption.
  Qed.
  Lemma Delete_spec : forall t s v, Own t s v -> exists s', Release enc0 (ptr s) s = Ret s' tt /\ Inv s' t /\ Same t s s' /\ ptr s' = ptr s.
  Proof.
    intros t s v [I _]. destruct (Release_spec enc0 s (ptr s) t I) as (s' & E & I' & S' & P & _). exists s'. auto.
  Qed.
End Members.
