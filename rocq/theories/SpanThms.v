(** Properties C14-C20: searching, slicing, trimming, splitting and comparing spans and
    string views.  [wf], [view], [occurs], [first_index], [last_index], [in_range],
    [pieces_of] and [join] are the specification vocabulary (SpanProofs.v). *)
From Coq Require Import ZArith Lia Bool List ZifyBool.
From Verif Require Import Word SpanModel SpanProofs.
Import ListNotations.
Local Open Scope Z_scope.

Section T.
  Variable A : Type.
  Variable eqb : A -> A -> bool.
  Hypothesis eqb_spec : forall x y, eqb x y = true <-> x = y.

  (** ** C14 *)
  Theorem C14_IndexOf : forall (s : span A) v, wf s ->
    exists r, IndexOf eqb s v = Some r
      /\ first_index (fun k => nth_error (view s) k = Some v) r.
  Proof. exact (IndexOf_ok A eqb eqb_spec). Qed.

  Theorem C14_IndexOf_span : forall s needle : span A, wf s -> wf needle -> view needle <> [] ->
    exists r, IndexOfSpan eqb s needle = Some r
      /\ first_index (occurs (view needle) (view s)) r.
  Proof.
    intros s needle Hs Hn Hne. apply (IndexOfSpan_ok A eqb eqb_spec); try assumption.
    intro C. apply (view_nil_iff A needle Hn) in C. contradiction.
  Qed.

  Theorem C14_IndexOfAny : forall s anyof : span A, wf s -> wf anyof ->
    exists r, IndexOfAny eqb s anyof = Some r
      /\ first_index (fun k => exists x, nth_error (view s) k = Some x /\ In x (view anyof)) r.
  Proof. exact (IndexOfAny_ok A eqb eqb_spec). Qed.

  Theorem C14_IndexOf_ranged : forall (s : span A) v i n, wf s -> is_u64 i -> is_u64 n ->
    exists r, IndexOfR eqb s v i n = Some r
      /\ first_index (fun k => nth_error (view s) k = Some v /\ in_range i n k 1) r.
  Proof.
    intros s v i n Hs [Hi _] [Hn _]. exact (IndexOfR_ok A eqb eqb_spec s v i n Hs Hi Hn).
  Qed.

  Theorem C14_IndexOf_span_ranged : forall (s needle : span A) i n, wf s -> wf needle ->
    view needle <> [] -> is_u64 i -> is_u64 n ->
    exists r, IndexOfSpanR eqb s needle i n = Some r
      /\ first_index (fun k => occurs (view needle) (view s) k
                               /\ in_range i n k (length (view needle))) r.
  Proof.
    intros s needle i n Hs Hw Hne [Hi _] [Hn _].
    apply (IndexOfSpanR_ok A eqb eqb_spec); try assumption.
    intro C. apply (view_nil_iff A needle Hw) in C. contradiction.
  Qed.

  Theorem C14_IndexOfAny_ranged : forall (s anyof : span A) i n, wf s -> wf anyof ->
    is_u64 i -> is_u64 n ->
    exists r, IndexOfAnyR eqb s anyof i n = Some r
      /\ first_index (fun k => (exists x, nth_error (view s) k = Some x /\ In x (view anyof))
                               /\ in_range i n k 1) r.
  Proof.
    intros s anyof i n Hs Ha [Hi _] [Hn _].
    exact (IndexOfAnyR_ok A eqb eqb_spec s anyof i n Hs Ha Hi Hn).
  Qed.

  (** An empty needle is never found, by any of the searches. *)
  Theorem C14_C15_empty_needle : forall (s needle : span A) i n, wf s -> wf needle -> view needle = [] ->
    is_u64 i -> is_u64 n ->
    IndexOfSpan eqb s needle = Some U64MAX /\ LastIndexOfSpan eqb s needle = Some U64MAX
    /\ IndexOfSpanR eqb s needle i n = Some U64MAX /\ LastIndexOfSpanR eqb s needle i n = Some U64MAX.
  Proof.
    intros s needle i n Hs Hn E Hi Hk. apply (view_nil_iff A needle Hn) in E.
    unfold IndexOfSpan, LastIndexOfSpan, IndexOfSpanR, LastIndexOfSpanR. rewrite E. cbn [Z.eqb].
    repeat split. destruct (sp_len s =? 0); reflexivity.
  Qed.

  (** ** C15 *)
  Theorem C15_LastIndexOf : forall (s : span A) v, wf s ->
    exists r, LastIndexOf eqb s v = Some r
      /\ last_index (fun k => nth_error (view s) k = Some v) r.
  Proof. exact (LastIndexOf_ok A eqb eqb_spec). Qed.

  Theorem C15_LastIndexOf_span : forall s needle : span A, wf s -> wf needle -> view needle <> [] ->
    exists r, LastIndexOfSpan eqb s needle = Some r
      /\ last_index (occurs (view needle) (view s)) r.
  Proof.
    intros s needle Hs Hn Hne. apply (LastIndexOfSpan_ok A eqb eqb_spec); try assumption.
    intro C. apply (view_nil_iff A needle Hn) in C. contradiction.
  Qed.

  Theorem C15_LastIndexOfAny : forall s anyof : span A, wf s -> wf anyof ->
    exists r, LastIndexOfAny eqb s anyof = Some r
      /\ last_index (fun k => exists x, nth_error (view s) k = Some x /\ In x (view anyof)) r.
  Proof. exact (LastIndexOfAny_ok A eqb eqb_spec). Qed.

  Theorem C15_LastIndexOf_ranged : forall (s : span A) v i n, wf s -> is_u64 i -> is_u64 n ->
    exists r, LastIndexOfR eqb s v i n = Some r
      /\ last_index (fun k => nth_error (view s) k = Some v /\ in_range i n k 1) r.
  Proof.
    intros s v i n Hs [Hi _] [Hn _]. exact (LastIndexOfR_ok A eqb eqb_spec s v i n Hs Hi Hn).
  Qed.

  Theorem C15_LastIndexOf_span_ranged : forall (s needle : span A) i n, wf s -> wf needle ->
    view needle <> [] -> is_u64 i -> is_u64 n ->
    exists r, LastIndexOfSpanR eqb s needle i n = Some r
      /\ last_index (fun k => occurs (view needle) (view s) k
                              /\ in_range i n k (length (view needle))) r.
  Proof.
    intros s needle i n Hs Hw Hne [Hi _] [Hn _].
    apply (LastIndexOfSpanR_ok A eqb eqb_spec); try assumption.
    intro C. apply (view_nil_iff A needle Hw) in C. contradiction.
  Qed.

  Theorem C15_LastIndexOfAny_ranged : forall (s anyof : span A) i n, wf s -> wf anyof ->
    is_u64 i -> is_u64 n ->
    exists r, LastIndexOfAnyR eqb s anyof i n = Some r
      /\ last_index (fun k => (exists x, nth_error (view s) k = Some x /\ In x (view anyof))
                              /\ in_range i n k 1) r.
  Proof.
    intros s anyof i n Hs Ha [Hi _] [Hn _].
    exact (LastIndexOfAnyR_ok A eqb eqb_spec s anyof i n Hs Ha Hi Hn).
  Qed.

  (** ** C16 *)
  (** [t] shows part of the block that [s] shows. *)
  Definition inside (t s : span A) : Prop :=
    sp_mem t = sp_mem s /\ sp_off s <= sp_off t
    /\ sp_off t + sp_len t <= sp_off s + sp_len s /\ 0 <= sp_len t.

  Theorem C16_Subspan : forall (s : span A) i n, wf s -> is_u64 i -> is_u64 n ->
    inside (Subspan s i n) s
    /\ view (Subspan s i n) = firstn (Z.to_nat n) (skipn (Z.to_nat i) (view s)).
  Proof.
    intros s i n Hw [Hi _] [Hn _]. destruct (Subspan_ok A s i n Hw Hi Hn) as (W & M & V).
    split; [|exact V]. unfold inside, Subspan. destruct Hw as (H1 & H2 & H3 & H4).
    destruct (Z.ltb_spec i (sp_len s)); cbn; (split; [reflexivity|lia]).
  Qed.

  Theorem C16_Subspan_to_end : forall (s : span A) i, wf s -> is_u64 i ->
    inside (Subspan1 s i) s /\ view (Subspan1 s i) = skipn (Z.to_nat i) (view s).
  Proof.
    intros s i Hw [Hi _]. destruct (Subspan1_ok A s i Hw Hi) as (W & M & V).
    split; [|exact V]. unfold inside, Subspan1. destruct Hw as (H1 & H2 & H3 & H4).
    destruct (Z.ltb_spec i (sp_len s)); cbn; (split; [reflexivity|lia]).
  Qed.

  (** Full claim: the same without [rs + re < 2^64].  Missing: the wrapping sums, for
      which the claim is false (next theorem). *)
  Theorem C16_Slice_partial : forall (s : span A) rs re, wf s -> is_u64 rs -> is_u64 re ->
    rs + re < W64 ->
    inside (Slice s rs re) s
    /\ view (Slice s rs re)
       = firstn (length (view s) - Z.to_nat rs - Z.to_nat re) (skipn (Z.to_nat rs) (view s)).
  Proof.
    intros s rs re Hw [Hrs _] [Hre _] Hsum.
    destruct (Slice_ok A s rs re Hw Hrs Hre Hsum) as (W & M & V). split; [|exact V].
    unfold inside, Slice. destruct Hw as (H1 & H2 & H3 & H4).
    rewrite (u64_id (rs + re)) by (unfold is_u64; lia).
    destruct (Z.leb_spec (sp_len s) (rs + re)); cbn; [repeat split; lia|].
    rewrite s64_id by (unfold is_s64, W63 in *; lia).
    rewrite (u64_id (sp_len s - rs)) by (unfold is_u64, W64, W63 in *; lia).
    rewrite (u64_id (sp_len s - rs - re)) by (unfold is_u64, W64, W63 in *; lia).
    split; [reflexivity|lia].
  Qed.

  (** ** C17 *)
  Theorem C17_TrimStart : forall s trim : span A, wf s -> wf trim ->
    exists s', TrimStart eqb s trim = Some s' /\ wf s' /\ sp_mem s' = sp_mem s
      /\ exists pre, view s = pre ++ view s' /\ Forall (fun x => In x (view trim)) pre
         /\ (forall x rest, view s' = x :: rest -> ~ In x (view trim)).
  Proof.
    intros s trim Hs Ht. unfold TrimStart. destruct (Z.eqb_spec (sp_len trim) 0) as [E|NE].
    - exists s. split; [reflexivity|]. split; [exact Hs|]. split; [reflexivity|]. exists [].
      split; [reflexivity|]. split; [constructor|]. intros x rest _ C.
      rewrite (no_elements A trim Ht E) in C. destruct C.
    - apply (trim_start_loop_ok A eqb eqb_spec); try assumption. reflexivity.
  Qed.

  Theorem C17_TrimEnd : forall s trim : span A, wf s -> wf trim ->
    exists s', TrimEnd eqb s trim = Some s' /\ wf s' /\ sp_mem s' = sp_mem s
      /\ exists post, view s = view s' ++ post /\ Forall (fun x => In x (view trim)) post
         /\ (forall x front, view s' = front ++ [x] -> ~ In x (view trim)).
  Proof.
    intros s trim Hs Ht. unfold TrimEnd. destruct (Z.eqb_spec (sp_len trim) 0) as [E|NE].
    - exists s. split; [reflexivity|]. split; [exact Hs|]. split; [reflexivity|]. exists [].
      split; [symmetry; apply app_nil_r|]. split; [constructor|]. intros x rest _ C.
      rewrite (no_elements A trim Ht E) in C. destruct C.
    - apply (trim_end_loop_ok A eqb eqb_spec); try assumption. reflexivity.
  Qed.

  Theorem C17_Trim : forall s trim : span A, wf s -> wf trim ->
    exists s', Trim eqb s trim = Some s' /\ wf s' /\ sp_mem s' = sp_mem s
      /\ exists pre post, view s = pre ++ view s' ++ post
         /\ Forall (fun x => In x (view trim)) (pre ++ post)
         /\ (forall x rest, view s' = x :: rest -> ~ In x (view trim))
         /\ (forall x front, view s' = front ++ [x] -> ~ In x (view trim)).
  Proof.
    intros s trim Hs Ht. unfold Trim.
    destruct (C17_TrimStart s trim Hs Ht) as (s1 & -> & W1 & M1 & pre & V1 & F1 & N1).
    destruct (C17_TrimEnd s1 trim W1 Ht) as (s2 & -> & W2 & M2 & post & V2 & F2 & N2).
    exists s2. split; [reflexivity|]. split; [exact W2|]. split; [congruence|].
    exists pre, post. split; [rewrite V1, V2; reflexivity|].
    split; [apply Forall_app; split; assumption|]. split; [|exact N2].
    intros x rest E. apply (N1 x (rest ++ post)). rewrite V2, E. reflexivity.
  Qed.

  (** ** C18 *)
  Theorem C18_pieces : forall (s : span A) v fuel, wf s -> (length (view s) <= fuel)%nat ->
    exists ps, Pieces eqb s v fuel = Some ps
      /\ Forall (fun p => wf p /\ sp_mem p = sp_mem s) ps
      /\ pieces_of [v] (view s) (map view ps)
      /\ Forall (fun p => ~ In v (view p)) ps
      /\ (view s = join [v] (map view ps) \/ view s = join [v] (map view ps) ++ [v]).
  Proof.
    intros s v fuel Hw Hf. rewrite (view_length A s Hw) in Hf.
    destruct (split_walk_ok A s [v] _ Hw ltac:(discriminate) (split_value_step A eqb eqb_spec s v Hw) fuel 0)
      as (ps & E & F & P); [lia|lia|].
    cbn [Z.to_nat skipn] in P. exists ps. split; [exact E|]. split; [exact F|]. split; [exact P|].
    split.
    - assert (Q := pieces_free A [v] _ _ ltac:(discriminate) P). rewrite Forall_map in Q.
      apply Forall_forall. intros p Hp C. rewrite Forall_forall in Q.
      apply In_nth_error in C. destruct C as [k Hk].
      apply (Q p Hp k). apply (occurs_one A (view p) v k). exact Hk.
    - apply pieces_join; [discriminate|exact P].
  Qed.

  Theorem C18_pieces_span : forall (s sep : span A) fuel, wf s -> wf sep -> view sep <> [] ->
    (length (view s) <= fuel)%nat ->
    exists ps, PiecesSpan eqb s sep fuel = Some ps
      /\ Forall (fun p => wf p /\ sp_mem p = sp_mem s) ps
      /\ pieces_of (view sep) (view s) (map view ps)
      /\ Forall (fun p => forall k, ~ occurs (view sep) (view p) k) ps
      /\ (view s = join (view sep) (map view ps) \/ view s = join (view sep) (map view ps) ++ view sep).
  Proof.
    intros s sep fuel Hw Hs Hne Hf. rewrite (view_length A s Hw) in Hf.
    assert (Hne' : sp_len sep <> 0).
    { intro C. apply (view_nil_iff A sep Hs) in C. contradiction. }
    destruct (split_walk_ok A s (view sep) _ Hw Hne (split_span_step A eqb eqb_spec s sep Hw Hs Hne') fuel 0)
      as (ps & E & F & P); [lia|lia|].
    cbn [Z.to_nat skipn] in P. exists ps. split; [exact E|]. split; [exact F|]. split; [exact P|].
    split.
    - assert (Q := pieces_free A _ _ _ Hne P). rewrite Forall_map in Q. exact Q.
    - apply pieces_join; [exact Hne|exact P].
  Qed.

  (** The variant that returns the remaining text: first piece, separator, rest. *)
  Theorem C18_remaining : forall (s : span A) v, wf s -> view s <> [] ->
    exists p rest, SplitRemaining eqb s v = Some (p, rest) /\ wf p /\ wf rest
      /\ ~ In v (view p)
      /\ (view s = view p /\ view rest = [] \/ view s = view p ++ [v] ++ view rest).
  Proof.
    intros s v Hw Hne. unfold SplitRemaining.
    assert (Hl : sp_len s <> 0) by (intro C; apply (view_nil_iff A s Hw) in C; contradiction).
    assert (Hw' := Hw). destruct Hw' as (W1 & W2 & W3 & W4).
    destruct (split_value_step A eqb eqb_spec s v Hw 0) as (p & nx & -> & Wp & _ & H); [lia|].
    cbn [Z.to_nat skipn] in H. exists p, (Subspan1 s nx). split; [reflexivity|]. split; [exact Wp|].
    destruct H as [(N & V & ->)|(rest & E & F & -> & Er)].
    - destruct (Subspan1_ok A s (sp_len s) Hw W2) as (Ws & _ & Vs). split; [exact Ws|]. split.
      + intros C. apply In_nth_error in C. destruct C as [k Hk]. rewrite V in Hk.
        apply (N k). apply (occurs_one A (view s) v k). exact Hk.
      + left. split; [symmetry; exact V|]. rewrite Vs. apply skipn_all2.
        rewrite (view_length A s Hw). lia.
    - match goal with |- wf (Subspan1 s ?n) /\ _ => destruct (Subspan1_ok A s n Hw) as (Ws & _ & Vs); [lia|] end.
      split; [exact Ws|]. split.
      + intros C. apply In_nth_error in C. destruct C as [k Hk].
        assert (Lk : (k < length (view p))%nat) by (apply nth_error_Some; congruence).
        assert (length (view p) <= k)%nat; [|lia]. apply F.
        apply (occurs_one A (view s) v k). rewrite E, nth_error_app1 by exact Lk. exact Hk.
      + right. rewrite Vs, Er. exact E.
  Qed.

  Theorem C18_remaining_span : forall s sep : span A, wf s -> wf sep -> view s <> [] -> view sep <> [] ->
    exists p rest, SplitRemainingSpan eqb s sep = Some (p, rest) /\ wf p /\ wf rest
      /\ (forall k, ~ occurs (view sep) (view p) k)
      /\ (view s = view p /\ view rest = [] \/ view s = view p ++ view sep ++ view rest).
  Proof.
    intros s sep Hw Hs Hne Hse. unfold SplitRemainingSpan.
    assert (Hl : sp_len s <> 0) by (intro C; apply (view_nil_iff A s Hw) in C; contradiction).
    assert (Hl' : sp_len sep <> 0) by (intro C; apply (view_nil_iff A sep Hs) in C; contradiction).
    assert (Hw' := Hw). destruct Hw' as (W1 & W2 & W3 & W4).
    destruct (split_span_step A eqb eqb_spec s sep Hw Hs Hl' 0) as (p & nx & -> & Wp & _ & H); [lia|].
    cbn [Z.to_nat skipn] in H. exists p, (Subspan1 s nx). split; [reflexivity|]. split; [exact Wp|].
    destruct H as [(N & V & ->)|(rest & E & F & -> & Er)].
    - destruct (Subspan1_ok A s (sp_len s) Hw W2) as (Ws & _ & Vs). split; [exact Ws|]. split.
      + intros k C. rewrite V in C. exact (N k C).
      + left. split; [symmetry; exact V|]. rewrite Vs. apply skipn_all2.
        rewrite (view_length A s Hw). lia.
    - match goal with |- wf (Subspan1 s ?n) /\ _ => destruct (Subspan1_ok A s n Hw) as (Ws & _ & Vs); [lia|] end.
      split; [exact Ws|]. split.
      + intros k (a & b & Ep & La).
        assert (length (view p) <= k)%nat.
        { apply F. rewrite E. exists a, (b ++ view sep ++ rest). split; [|exact La].
          rewrite Ep, <- !app_assoc. reflexivity. }
        apply Hse. apply (f_equal (@length A)) in Ep. rewrite !app_length in Ep.
        destruct (view sep); [reflexivity|cbn [length] in Ep; lia].
      + right. rewrite Vs, Er. exact E.
  Qed.

  (** ** C19 *)
  Theorem C19_equal : forall a b : span A, wf a -> wf b ->
    exists r, span_eq eqb a b = Some r /\ (r = true <-> view a = view b).
  Proof. exact (span_eq_ok A eqb eqb_spec). Qed.

  (** [StringView::operator!=] is the negation of its [operator==]. *)
  Theorem C19_view_not_equal : forall a b : span A, wf a -> wf b ->
    exists r, view_ne eqb a b = Some r /\ (r = true <-> view a <> view b).
  Proof.
    intros a b Ha Hb. destruct (view_ne_ok A eqb eqb_spec a b Ha Hb) as (r & E & N).
    destruct (span_eq_ok A eqb eqb_spec a b Ha Hb) as (r' & E' & H').
    rewrite E in E'. injection E' as <-. exists (negb r). split; [exact N|].
    destruct r; cbn; split; intro H; try discriminate; try reflexivity.
    - exfalso. apply H, H'. reflexivity.
    - intro C. apply H' in C. discriminate.
  Qed.

  (** Full claim: [span_ne a b = Some r /\ (r = true <-> view a <> view b)].  What the code
      computes instead: true when the lengths differ or {e some} position is equal. *)
  Theorem C19_span_not_equal_partial : forall a b : span A, wf a -> wf b ->
    exists r, span_ne eqb a b = Some r
      /\ (r = true <-> (length (view a) <> length (view b)
                        \/ exists k x, nth_error (view a) k = Some x /\ nth_error (view b) k = Some x)).
  Proof.
    intros a b Ha Hb. unfold span_ne.
    destruct (Z.eqb_spec (sp_len a) (sp_len b)) as [E|NE]; cbn [negb].
    - destruct (find_up_first (test_same eqb a b)
        (fun k => exists x, nth_error (view a) k = Some x /\ nth_error (view b) k = Some x)
        (Z.to_nat (sp_len a))) as (r & Er & Hr).
      + split.
        * intros k Hk. unfold test_same.
          destruct (rd_some A a (Z.of_nat k) Ha) as (x & -> & Ex); [destruct Ha; lia|].
          destruct (rd_some A b (Z.of_nat k) Hb) as (y & -> & Ey); [destruct Hb; lia|].
          rewrite Nat2Z.id in Ex, Ey. eexists. split; [reflexivity|].
          rewrite eqb_spec. split.
          { intros ->. exists y. split; assumption. }
          { intros (x' & Ex' & Ey'). congruence. }
        * intros k (x & Ex & _). apply (view_nth_lt A) in Ex; [lia|exact Ha].
      + apply (wf_len A), Ha.
      + rewrite Er. eexists. split; [reflexivity|]. rewrite (first_found _ _ Hr). split.
        * intros (k & x & H1 & H2). right. exists k, x. split; assumption.
        * intros [C|(k & x & H1 & H2)].
          { exfalso. apply C. rewrite !view_length by assumption. congruence. }
          { exists k, x. split; assumption. }
    - exists true. split; [reflexivity|]. split; [|reflexivity]. intros _. left.
      rewrite !view_length by assumption. destruct Ha, Hb; lia.
  Qed.

  (** ** C20 *)
  Theorem C20_StartsWith : forall s x : span A, wf s -> wf x ->
    exists r, StartsWith eqb s x = Some r /\ (r = true <-> exists t, view s = view x ++ t).
  Proof.
    intros s x Hs Hx. unfold StartsWith. destruct (Z.ltb_spec (sp_len s) (sp_len x)).
    - exists false. split; [reflexivity|]. split; [discriminate|]. intros [t E].
      apply (f_equal (@length A)) in E. rewrite app_length, !view_length in E by assumption.
      destruct Hs, Hx; lia.
    - destruct (Subspan_ok A s 0 (sp_len x) Hs) as (W & M & V); [lia|destruct Hx; lia|].
      destruct (span_eq_ok A eqb eqb_spec _ x W Hx) as (r & -> & Hr). exists r.
      split; [reflexivity|]. rewrite Hr, V. cbn [Z.to_nat skipn]. rewrite <- (view_length A x Hx).
      split.
      + intros E. exists (skipn (length (view x)) (view s)). rewrite <- E at 1.
        symmetry. apply firstn_skipn.
      + intros [t ->]. apply firstn_app_len.
  Qed.

  Theorem C20_EndsWith : forall s x : span A, wf s -> wf x ->
    exists r, EndsWith eqb s x = Some r /\ (r = true <-> exists t, view s = t ++ view x).
  Proof.
    intros s x Hs Hx. unfold EndsWith. destruct (Z.ltb_spec (sp_len s) (sp_len x)).
    - exists false. split; [reflexivity|]. split; [discriminate|]. intros [t E].
      apply (f_equal (@length A)) in E. rewrite app_length, !view_length in E by assumption.
      destruct Hs, Hx; lia.
    - destruct (Subspan_ok A s (sp_len s - sp_len x) (sp_len x) Hs) as (W & M & V);
        [lia|destruct Hx; lia|].
      destruct (span_eq_ok A eqb eqb_spec _ x W Hx) as (r & -> & Hr). exists r.
      split; [reflexivity|]. rewrite Hr, V.
      assert (L : length (skipn (Z.to_nat (sp_len s - sp_len x)) (view s)) = Z.to_nat (sp_len x)).
      { rewrite skipn_length, view_length by assumption. destruct Hs, Hx; lia. }
      rewrite firstn_all2 by lia. split.
      + intros E. exists (firstn (Z.to_nat (sp_len s - sp_len x)) (view s)). rewrite <- E.
        symmetry. apply firstn_skipn.
      + intros [t E]. rewrite E.
        replace (Z.to_nat (sp_len s - sp_len x)) with (length t).
        * apply skipn_app_len.
        * apply (f_equal (@length A)) in E. rewrite app_length, !view_length in E by assumption.
          destruct Hs, Hx; lia.
  Qed.

  Theorem C20_Contains : forall (s : span A) v, wf s ->
    exists r, Contains eqb s v = Some r /\ (r = true <-> In v (view s)).
  Proof.
    intros s v Hs. unfold Contains, found.
    destruct (IndexOf_in A eqb eqb_spec s v Hs) as (r & -> & H). eauto.
  Qed.

  Theorem C20_ContainsAny : forall s anyof : span A, wf s -> wf anyof ->
    exists r, ContainsAny eqb s anyof = Some r
      /\ (r = true <-> exists x, In x (view s) /\ In x (view anyof)).
  Proof.
    intros s anyof Hs Ha. unfold ContainsAny, found.
    destruct (IndexOfAny_ok A eqb eqb_spec s anyof Hs Ha) as (r & -> & H).
    eexists. split; [reflexivity|]. rewrite (first_found _ _ H). split.
    - intros (k & x & Hk & Hi). exists x. split; [apply nth_error_In in Hk; exact Hk|exact Hi].
    - intros (x & Hk & Hi). apply In_nth_error in Hk. destruct Hk as [k Hk]. exists k, x. auto.
  Qed.

  Theorem C20_Contains_span : forall s x : span A, wf s -> wf x -> view x <> [] ->
    exists r, ContainsSpan eqb s x = Some r
      /\ (r = true <-> exists pre post, view s = pre ++ view x ++ post).
  Proof.
    intros s x Hs Hx Hne. unfold ContainsSpan, found.
    destruct (C14_IndexOf_span s x Hs Hx Hne) as (r & -> & H).
    eexists. split; [reflexivity|]. rewrite (first_found _ _ H). split.
    - intros (k & pre & post & E & _). eauto.
    - intros (pre & post & E). exists (length pre), pre, post. auto.
  Qed.
End T.

(** The wrapping case of [Slice]: removing 2^64-1 elements from the start and 2 from the
    end of a 3-element span leaves a 2-element span that begins {e before} it. *)
Theorem C16_Slice_refuted : exists (s : span Z) rs re,
  wf s /\ is_u64 rs /\ is_u64 re /\ sp_len s <= rs
  /\ ~ inside Z (Slice s rs re) s /\ view (Slice s rs re) <> []
  /\ sp_off (Slice s rs re) < sp_off s.
Proof.
  exists (mkspan [1; 2; 3; 4; 5] 1 3), (W64 - 1), 2.
  assert (E : Slice (mkspan [1; 2; 3; 4; 5] 1 3) (W64 - 1) 2 = mkspan [1; 2; 3; 4; 5] 0 2)
    by reflexivity.
  rewrite E. unfold wf, is_u64, inside, W64, W63. cbn.
  repeat split; try lia. discriminate.
Qed.

(** [operator!=] of spans answers false for spans that differ everywhere and true for
    equal spans. *)
Theorem C19_span_not_equal_refuted :
  (exists a b : span Z, wf a /\ wf b /\ view a <> view b
     /\ span_eq Z.eqb a b = Some false /\ span_ne Z.eqb a b = Some false)
  /\ (exists a b : span Z, wf a /\ wf b /\ view a = view b
     /\ span_eq Z.eqb a b = Some true /\ span_ne Z.eqb a b = Some true).
Proof.
  split.
  - exists (mkspan [1; 2] 0 2), (mkspan [3; 4] 0 2). unfold wf, W63. cbn.
    repeat split; try lia. discriminate.
  - exists (mkspan [1; 2] 0 2), (mkspan [1; 2] 0 2). unfold wf, W63. cbn.
    repeat split; try lia.
Qed.

(** Concrete instances: the hypotheses of the theorems are met and the results are the
    expected ones. *)
Definition zs (l : list Z) : span Z := mkspan l 0 (Z.of_nat (length l)).
(** "a,b,,c," inside a larger block. *)
Definition txt : span Z := mkspan [9; 97; 44; 98; 44; 44; 99; 44; 9] 1 7.
Example ex_wf : wf txt /\ wf (zs [44; 44]).
Proof. unfold wf, W63; cbn; lia. Qed.
Example ex_view : view txt = [97; 44; 98; 44; 44; 99; 44]. Proof. reflexivity. Qed.
Example ex_IndexOf : IndexOf Z.eqb txt 44 = Some 1 /\ IndexOf Z.eqb txt 9 = Some U64MAX.
Proof. split; reflexivity. Qed.
Example ex_IndexOfSpan : IndexOfSpan Z.eqb txt (zs [44; 44]) = Some 3
  /\ IndexOfSpan Z.eqb txt (zs [44; 9]) = Some U64MAX.
Proof. split; reflexivity. Qed.
Example ex_IndexOfAny : IndexOfAny Z.eqb txt (zs [99; 98]) = Some 2. Proof. reflexivity. Qed.
Example ex_IndexOfR : IndexOfR Z.eqb txt 44 2 U64MAX = Some 3
  /\ IndexOfR Z.eqb txt 44 2 1 = Some U64MAX /\ IndexOfR Z.eqb txt 44 U64MAX U64MAX = Some U64MAX.
Proof. repeat split; reflexivity. Qed.
Example ex_IndexOfSpanR : IndexOfSpanR Z.eqb txt (zs [44; 44]) 1 4 = Some 3
  /\ IndexOfSpanR Z.eqb txt (zs [44; 44]) 1 3 = Some U64MAX.
Proof. split; reflexivity. Qed.
Example ex_Last : LastIndexOf Z.eqb txt 44 = Some 6 /\ LastIndexOfSpan Z.eqb txt (zs [44]) = Some 6
  /\ LastIndexOfAny Z.eqb txt (zs [99; 98]) = Some 5 /\ LastIndexOfR Z.eqb txt 44 0 6 = Some 4
  /\ LastIndexOfSpanR Z.eqb txt (zs [44]) 2 3 = Some 4
  /\ LastIndexOfAnyR Z.eqb txt (zs [99; 98]) 0 5 = Some 2.
Proof. repeat split; reflexivity. Qed.
Example ex_Sub : view (Subspan txt 2 3) = [98; 44; 44] /\ view (Subspan txt 2 U64MAX) = [98; 44; 44; 99; 44]
  /\ view (Subspan1 txt 5) = [99; 44] /\ view (Slice txt 2 4) = [98].
Proof. repeat split; reflexivity. Qed.
Example ex_Trim : match Trim Z.eqb txt (zs [44; 97]) with Some s => view s = [98; 44; 44; 99] | None => False end.
Proof. reflexivity. Qed.
Example ex_Pieces : match Pieces Z.eqb txt 44 7 with
  | Some ps => map view ps = [[97]; [98]; []; [99]] | None => False end.
Proof. reflexivity. Qed.
Example ex_PiecesSpan : match PiecesSpan Z.eqb txt (zs [44; 44]) 7 with
  | Some ps => map view ps = [[97; 44; 98]; [99; 44]] | None => False end.
Proof. reflexivity. Qed.
Example ex_Remaining : match SplitRemaining Z.eqb txt 44 with
  | Some (p, r) => view p = [97] /\ view r = [98; 44; 44; 99; 44] | None => False end.
Proof. split; reflexivity. Qed.
Example ex_RemainingSpan : match SplitRemainingSpan Z.eqb txt (zs [44; 44]) with
  | Some (p, r) => view p = [97; 44; 98] /\ view r = [99; 44] | None => False end.
Proof. split; reflexivity. Qed.
Example ex_eq : span_eq Z.eqb txt txt = Some true /\ view_ne Z.eqb txt txt = Some false
  /\ span_eq Z.eqb txt (zs [97]) = Some false.
Proof. repeat split; reflexivity. Qed.
Example ex_With : StartsWith Z.eqb txt (zs [97; 44]) = Some true /\ EndsWith Z.eqb txt (zs [97]) = Some false
  /\ EndsWith Z.eqb txt (zs [99; 44]) = Some true /\ Contains Z.eqb txt 98 = Some true
  /\ ContainsAny Z.eqb txt (zs [1; 98]) = Some true /\ ContainsSpan Z.eqb txt (zs [44; 44; 99]) = Some true.
Proof. repeat split; reflexivity. Qed.

Print Assumptions C14_IndexOf.
Print Assumptions C14_IndexOf_span.
Print Assumptions C14_IndexOfAny.
Print Assumptions C14_IndexOf_ranged.
Print Assumptions C14_IndexOf_span_ranged.
Print Assumptions C14_IndexOfAny_ranged.
Print Assumptions C14_C15_empty_needle.
Print Assumptions C15_LastIndexOf.
Print Assumptions C15_LastIndexOf_span.
Print Assumptions C15_LastIndexOfAny.
Print Assumptions C15_LastIndexOf_ranged.
Print Assumptions C15_LastIndexOf_span_ranged.
Print Assumptions C15_LastIndexOfAny_ranged.
Print Assumptions C16_Subspan.
Print Assumptions C16_Subspan_to_end.
Print Assumptions C16_Slice_partial.
Print Assumptions C16_Slice_refuted.
Print Assumptions C17_TrimStart.
Print Assumptions C17_TrimEnd.
Print Assumptions C17_Trim.
Print Assumptions C18_pieces.
Print Assumptions C18_pieces_span.
Print Assumptions C18_remaining.
Print Assumptions C18_remaining_span.
Print Assumptions C19_equal.
Print Assumptions C19_view_not_equal.
Print Assumptions C19_span_not_equal_partial.
Print Assumptions C19_span_not_equal_refuted.
Print Assumptions C20_StartsWith.
Print Assumptions C20_EndsWith.
Print Assumptions C20_Contains.
Print Assumptions C20_ContainsAny.
Print Assumptions C20_Contains_span.
