(** Property C117: failures are recognised as failures. *)
From Coq Require Import ZArith Lia List Bool.
From Verif Require Import ErrorModel.
Import ListNotations.
Open Scope Z_scope.

Lemma mark : forall l, Z.lor (Z.lor (Z.land l 65535) (Z.shiftl 7 16)) 2147483648 = l mod 65536 + 458752 + 2147483648.
Proof.
  intros l. change 65535 with (Z.ones 16). rewrite Z.land_ones by lia. change (2 ^ 16) with 65536.
  pose proof (Z.mod_pos_bound l 65536 ltac:(lia)) as B. set (m := l mod 65536) in *.
  assert (HI : forall k n, 0 <= n < 2 ^ k -> 0 <= k -> forall i, k <= i -> Z.testbit n i = false).
  { intros k n N K i I. destruct (Z.eq_dec n 0) as [->|NZ]; [apply Z.bits_0|]. apply Z.bits_above_log2; [lia|]. apply Z.log2_lt_pow2; [lia|].
    eapply Z.lt_le_trans; [apply N|]. apply Z.pow_le_mono_r; lia. }
  assert (D1 : Z.land m (Z.shiftl 7 16) = 0).
  { apply Z.bits_inj'. intros n N. rewrite Z.land_spec, Z.bits_0. destruct (Z.lt_ge_cases n 16).
    - rewrite (Z.shiftl_spec_low 7) by lia. apply andb_false_r.
    - rewrite (HI 16 m) by lia. reflexivity. }
  rewrite <- (Z.lxor_lor m _ D1), <- (Z.add_nocarry_lxor m _ D1). change (Z.shiftl 7 16) with 458752.
  assert (D2 : Z.land (m + 458752) 2147483648 = 0).
  { apply Z.bits_inj'. intros n N. rewrite Z.land_spec, Z.bits_0. change 2147483648 with (Z.shiftl 1 31). destruct (Z.lt_ge_cases n 31).
    - rewrite (Z.shiftl_spec_low 1) by lia. apply andb_false_r.
    - rewrite (HI 31 (m + 458752)) by lia. reflexivity. }
  rewrite <- (Z.lxor_lor _ _ D2), <- (Z.add_nocarry_lxor _ _ D2). reflexivity.
Qed.

(** With a 32-bit long, a status other than ERROR_SUCCESS becomes a failure, ERROR_SUCCESS becomes a success, and the code
    can be read back from the low half (codes of Windows have 16 bits). *)
Theorem C117_status_partial : forall l, - 2 ^ 31 <= l < 2 ^ 31 ->
  (failed (from_lstatus 32 l) = true <-> l <> 0) /\ (0 < l < 65536 -> from_lstatus 32 l mod 65536 = l).
Proof.
  intros l B. unfold failed, from_lstatus, S_OK. destruct (Z.eqb_spec l 0) as [->|NZ]; [split; [split; [discriminate|congruence]|lia]|].
  destruct (Z.leb_spec l 0).
  - split; [|lia]. split; [auto|]. intros _. apply Z.ltb_lt. lia.
  - rewrite mark. pose proof (Z.mod_pos_bound l 65536 ltac:(lia)). unfold to_long. change (2 ^ (32 - 1)) with 2147483648. change (2 ^ 32) with 4294967296.
    destruct (Z.ltb_spec (l mod 65536 + 458752 + 2147483648) 2147483648); [lia|]. split.
    + split; [auto|]. intros _. apply Z.ltb_lt. lia.
    + intros R. rewrite (Z.mod_small l) by lia. replace (l + 458752 + 2147483648 - 4294967296) with (l + (-32761) * 65536) by lia.
      rewrite Z.mod_add by lia. apply Z.mod_small. lia.
Qed.
(** With a 64-bit long no positive status ever becomes a failure. *)
Theorem C117_status_refuted : forall l, 0 < l -> succeeded (from_lstatus 64 l) = true /\ failed (from_lstatus 64 l) = false.
Proof.
  intros l L. unfold succeeded, failed, from_lstatus. destruct (Z.eqb_spec l 0); [lia|]. destruct (Z.leb_spec l 0); [lia|]. rewrite mark.
  pose proof (Z.mod_pos_bound l 65536 ltac:(lia)). unfold to_long. change (2 ^ (64 - 1)) with 9223372036854775808.
  destruct (Z.ltb_spec (l mod 65536 + 458752 + 2147483648) 9223372036854775808); [|lia]. split; [apply Z.leb_le; lia|apply Z.ltb_ge; lia].
Qed.
(** Outside Windows every error constant counts as success, and most cannot be told from each other. *)
Theorem C117_constants_refuted : Forall (fun e => succeeded e = true /\ failed e = false) errors /\ E_PENDING = E_FAIL /\ E_ABORT = E_PENDING /\ S_FALSE = S_OK.
Proof. split; [repeat constructor|]. repeat split. Qed.

(** A refused task has as many references as before, an accepted one that was run too: on Windows. *)
Theorem C117_refs_partial : forall refs ok ran, (ran = true -> ok = true) ->
  windows_post refs ok ran = if ok && negb ran then refs + 1 else refs.
Proof. intros refs [] [] H; cbn; try (specialize (H eq_refl); discriminate); unfold windows_post; cbn; lia. Qed.
(** On Linux a refused task keeps a reference nobody will release. *)
Theorem C117_refs_refuted : forall refs a, a <> LOk -> linux_post refs a false = refs + 1.
Proof. intros refs [] H; try congruence; reflexivity. Qed.
(** An accepted one does not. *)
Theorem C117_linux_partial : forall refs, linux_post refs LOk true = refs.
Proof. intros refs. unfold linux_post; cbn. lia. Qed.

Example C117_cancelled : from_lstatus 32 1223 = -2147023673 /\ from_lstatus 64 1223 = 2147943623.
Proof. split; reflexivity. Qed.

Print Assumptions C117_status_partial.
Print Assumptions C117_status_refuted.
Print Assumptions C117_constants_refuted.
Print Assumptions C117_refs_partial.
Print Assumptions C117_refs_refuted.
Print Assumptions C117_linux_partial.
