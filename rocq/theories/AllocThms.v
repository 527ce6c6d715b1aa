(** Property C71: array buffers are large enough for their capacity. *)
From Coq Require Import ZArith Lia List.
From Verif Require Import Word AllocModel.
Import ListNotations.
Local Open Scope Z_scope.

(** A buffer serves a request for [n] elements of [sz] bytes: its recorded capacity is at least
    [n] and the header and that many elements fit into what was allocated. *)
Definition serves (b : buffer) (sz n : Z) : Prop :=
  match b with
  | Static => n = 0
  | Block bytes cap => n <= cap /\ 32 + sz * cap <= bytes
  end.

Lemma align_small : forall n, 0 <= n -> n + 15 < W64 -> n <= align_up16 n <= n + 15 /\ (n = 0 <-> align_up16 n = 0).
Proof.
  intros n N L. unfold align_up16. rewrite Z.mod_small by lia.
  pose proof (Z.div_mod (n + 15) 16 ltac:(lia)). pose proof (Z.mod_pos_bound (n + 15) 16 ltac:(lia)). lia.
Qed.
Lemma align_big : forall n, n < W64 -> W64 <= n + 15 -> align_up16 n = 0.
Proof.
  intros n N L. unfold align_up16. assert (100 < W64) by reflexivity. replace ((n + 15) mod W64) with (n + 15 - W64).
  - rewrite Z.div_small by lia. lia.
  - rewrite <- (Z_mod_plus_full (n + 15) (-1) W64). rewrite Z.mod_small; lia.
Qed.
Lemma bytes_small : forall sz cap, 0 <= sz -> 0 <= cap -> 32 + sz * cap < W64 -> block_bytes sz cap = 32 + sz * cap.
Proof.
  intros sz cap S C L. unfold block_bytes, sizeof_SharedData. rewrite (Z.mod_small (sz * cap)) by nia. apply Z.mod_small. nia.
Qed.
Lemma bytes_lt : forall sz cap, 0 <= block_bytes sz cap < W64.
Proof. intros. unfold block_bytes. apply Z.mod_pos_bound. reflexivity. Qed.

(** Exactly when a request is served. *)
Theorem C71_Alloc_exact : forall sz n, 0 < sz -> 0 <= n < W64 ->
  (serves (SharedAlloc sz n) sz n <-> n + 15 < W64 /\ (n = 0 \/ 32 + sz * align_up16 n < W64)).
Proof.
  intros sz n S N. unfold SharedAlloc. destruct (Z.ltb_spec (n + 15) W64) as [L|L].
  - destruct (align_small n ltac:(lia) L) as [A Z0]. destruct (Z.eqb_spec (align_up16 n) 0) as [E|E]; cbn [serves].
    + split; [intros ->; auto|]. intros _. apply Z0. assumption.
    + split.
      * intros [_ H]. split; [assumption|]. right. pose proof (bytes_lt sz (align_up16 n)). lia.
      * intros [_ [->|H]]; [exfalso; apply E, Z0; reflexivity|]. rewrite bytes_small by lia. lia.
  - rewrite (align_big n ltac:(lia) L). cbn. split; [intros ->; unfold W64 in L; lia|lia].
Qed.

(** Full statement: every request that does not fail is served.  Missing: requests of 2^64 bytes
    and more (C71_bytes_wrap_refuted, C71_align_wrap_refuted). *)
Theorem C71_Alloc_partial : forall sz n, 0 < sz -> 0 <= n -> 32 + sz * (n + 15) < W64 -> serves (SharedAlloc sz n) sz n.
Proof.
  intros sz n S N L. assert (n + 15 < W64) by nia. apply C71_Alloc_exact; [assumption|lia|]. split; [assumption|]. right.
  destruct (align_small n N ltac:(assumption)) as [[_ A] _]. assert (sz * align_up16 n <= sz * (n + 15)) by (apply Z.mul_le_mono_nonneg_l; lia). lia.
Qed.
Theorem C71_ReAlloc_partial : forall trivial sz n, 0 < sz -> 0 < n -> 32 + sz * (32 + sz * (n + 15) + 15) < W64 ->
  serves (SharedReAlloc trivial sz n) sz n.
Proof.
  intros trivial sz n S N L. assert (L1 : 32 + sz * (n + 15) < W64) by (assert (1 * (32 + sz * (n + 15) + 15) <= sz * (32 + sz * (n + 15) + 15)) by (apply Z.mul_le_mono_nonneg_r; nia); lia). assert (L2 : n + 15 < W64) by nia.
  destruct (align_small n ltac:(lia) L2) as [A Z0]. assert (M : sz * align_up16 n <= sz * (n + 15)) by (apply Z.mul_le_mono_nonneg_l; lia). assert (L3 : 32 + sz * align_up16 n < W64) by lia.
  assert (M0 : 0 <= sz * align_up16 n) by (apply Z.mul_nonneg_nonneg; lia).
  assert (M2 : sz * (32 + sz * align_up16 n + 15) <= sz * (32 + sz * (n + 15) + 15)) by (apply Z.mul_le_mono_nonneg_l; lia).
  unfold SharedReAlloc. destruct trivial; [cbn [serves]; rewrite bytes_small by lia; lia|].
  rewrite bytes_small by lia. pose proof (C71_Alloc_partial sz (32 + sz * align_up16 n) S ltac:(lia) ltac:(lia)) as P.
  destruct (SharedAlloc sz (32 + sz * align_up16 n)) as [|bytes cap]; cbn [serves] in *; [lia|].
  assert (1 * cap <= sz * cap) by (apply Z.mul_le_mono_nonneg_r; lia). lia.
Qed.
(** Growing an array of elements that are not trivially copyable takes sizeof(_Type) times the
    memory needed. *)
Theorem C71_ReAlloc_excess : forall sz n, 0 < sz -> 0 < n -> 32 + sz * (32 + sz * (n + 15) + 15) < W64 ->
  exists bytes cap, SharedReAlloc false sz n = Block bytes cap /\ sz * (32 + sz * cap) < bytes.
Proof.
  intros sz n S N L. assert (L1 : 32 + sz * (n + 15) < W64) by (assert (1 * (32 + sz * (n + 15) + 15) <= sz * (32 + sz * (n + 15) + 15)) by (apply Z.mul_le_mono_nonneg_r; nia); lia). assert (L2 : n + 15 < W64) by nia.
  destruct (align_small n ltac:(lia) L2) as [A Z0]. assert (M : sz * align_up16 n <= sz * (n + 15)) by (apply Z.mul_le_mono_nonneg_l; lia). assert (L3 : 32 + sz * align_up16 n < W64) by lia.
  assert (M0 : 0 <= sz * align_up16 n) by (apply Z.mul_nonneg_nonneg; lia).
  assert (M2 : sz * (32 + sz * align_up16 n + 15) <= sz * (32 + sz * (n + 15) + 15)) by (apply Z.mul_le_mono_nonneg_l; lia).
  unfold SharedReAlloc. rewrite bytes_small by lia. unfold SharedAlloc.
  destruct (align_small (32 + sz * align_up16 n) ltac:(lia) ltac:(nia)) as [A2 Z2].
  destruct (Z.eqb_spec (align_up16 (32 + sz * align_up16 n)) 0) as [E|E]; [lia|].
  eexists; eexists; split; [reflexivity|]. 
  assert (sz * align_up16 (32 + sz * align_up16 n) <= sz * (32 + sz * align_up16 n + 15)) by (apply Z.mul_le_mono_nonneg_l; lia).
  rewrite bytes_small by lia. assert (sz * (32 + sz * align_up16 n) <= sz * align_up16 (32 + sz * align_up16 n)) by (apply Z.mul_le_mono_nonneg_l; lia). lia.
Qed.
Theorem C71_NewCapacity : forall c need, 0 <= c < W64 -> 0 <= need < W64 -> need <= NewCapacity c need < W64.
Proof.
  intros c need C N. unfold NewCapacity. destruct (Z.leb_spec need c); [lia|]. pose proof (Z.mod_pos_bound (c + c / 2) W64 ltac:(reflexivity)).
  destruct (Z.leb_spec need ((c + c / 2) mod W64)); lia.
Qed.
Theorem C71_soo_partial : forall sz cap, 0 < sz -> 0 <= cap -> cap * sz < W64 -> soo_bytes sz cap = cap * sz.
Proof. intros. unfold soo_bytes. apply Z.mod_small. nia. Qed.

(** Reserve(2^62) on an array of 4-byte elements: 32 bytes for a capacity of 2^62. *)
Theorem C71_bytes_wrap_refuted : exists sz n bytes, 0 < sz /\ 0 < n < W64 /\ SharedAlloc sz n = Block bytes n /\ bytes = 32 /\
  ~ serves (SharedAlloc sz n) sz n /\ soo_bytes sz n = 0.
Proof. exists 4, (2 ^ 62), 32. vm_compute. repeat split; try reflexivity; try discriminate. intros [_ H]. apply H. reflexivity. Qed.
(** Resize(2^64 - 1) on an empty array of bytes gets the static buffer. *)
Theorem C71_align_wrap_refuted : exists sz n, 0 < sz /\ 0 < n < W64 /\ SharedAlloc sz n = Static /\ ~ serves (SharedAlloc sz n) sz n.
Proof. exists 1, (2 ^ 64 - 1). vm_compute. repeat split; try reflexivity; try discriminate. Qed.

(** Property C73.  Growing a zeroed block without _MSC_VER: everything is cleared, the old
    contents are lost. *)
Theorem C73_new_zero : forall old junk n k, (length old <= k < n)%nat -> (n <= length (old ++ junk))%nat ->
  nth_error (ReAllocAndZero old junk n) k = Some 0.
Proof.
  intros old junk n k K L. unfold ReAllocAndZero, realloc_bytes. rewrite nth_error_map.
  destruct (nth_error (firstn n (old ++ junk)) k) eqn:E; [reflexivity|]. apply nth_error_None in E. rewrite firstn_length in E. lia.
Qed.
Theorem C73_kept_iff_zero : forall old junk n, (length old <= n)%nat ->
  (firstn (length old) (ReAllocAndZero old junk n) = old <-> Forall (fun b => b = 0) old).
Proof.
  intros old junk n L. unfold ReAllocAndZero, realloc_bytes. rewrite firstn_map, firstn_firstn. replace (Nat.min (length old) n) with (length old) by lia.
  rewrite firstn_app, firstn_all, Nat.sub_diag. cbn. rewrite app_nil_r. split.
  - intros H. rewrite <- H. apply Forall_forall. intros x X. apply in_map_iff in X. destruct X as (? & <- & _). reflexivity.
  - intros H. induction H as [|x l -> _ IH]; [reflexivity|]. cbn. f_equal. apply IH. cbn in L. lia.
Qed.
Theorem C73_old_lost_refuted : exists old junk n, (length old <= n <= length (old ++ junk))%nat /\
  firstn (length old) (ReAllocAndZero old junk n) <> old.
Proof. exists [7; 8], [1; 2], 4%nat. split; [cbn; lia|]. cbn. discriminate. Qed.

Example ex_alloc : SharedAlloc 8 20 = Block 288 32 /\ serves (SharedAlloc 8 20) 8 20.
Proof. vm_compute. repeat split; discriminate. Qed.
Example ex_realloc_excess : SharedReAlloc false 8 20 = Block 2336 32 /\ SharedReAlloc true 8 20 = Block 288 32.
Proof. vm_compute. auto. Qed.
Example ex_newcap : NewCapacity 16 17 = 24 /\ NewCapacity (2 ^ 64 - 2) (2 ^ 64 - 1) = 2 ^ 64 - 1.
Proof. vm_compute. auto. Qed.

Print Assumptions C71_Alloc_exact.
Print Assumptions C71_Alloc_partial.
Print Assumptions C71_ReAlloc_partial.
Print Assumptions C71_ReAlloc_excess.
Print Assumptions C71_NewCapacity.
Print Assumptions C71_soo_partial.
Print Assumptions C71_bytes_wrap_refuted.
Print Assumptions C71_align_wrap_refuted.
Print Assumptions C73_new_zero.
Print Assumptions C73_kept_iff_zero.
Print Assumptions C73_old_lost_refuted.
