(** Property C121: versions of files and of the system. *)
From Coq Require Import ZArith Lia Bool.
From Verif Require Import ErrorModel ErrorThms FileVerModel.
Open Scope Z_scope.

(** * Specification *)
(** Error codes of Windows. *)
Definition code {A} (a : ans A) : Prop := match a with Fails err => 0 < err < 2 ^ 31 | _ => True end.
Definition codes (s : answers) : Prop := code (find s) /\ code (load s) /\ code (copy s) /\ code (query s) /\ code (read_ls s) /\ code (read_ms s).

Lemma hr_fails : forall err, 0 < err < 2 ^ 31 -> hr_of err < 0.
Proof.
  intros err B. unfold hr_of. destruct (C117_status_partial err ltac:(lia)) as (H & _). unfold from_lstatus. 
  destruct (Z.eqb_spec err 0); [lia|]. destruct (Z.leb_spec err 0); [lia|]. rewrite mark. unfold to_long.
  pose proof (Z.mod_pos_bound err 65536 ltac:(lia)). change (2 ^ (32 - 1)) with 2147483648. change (2 ^ 32) with 4294967296.
  destruct (Z.ltb_spec (err mod 65536 + 458752 + 2147483648) 2147483648); lia.
Qed.
Lemma disk_fails : hr_of disk_failed < 0. Proof. apply hr_fails. unfold disk_failed. lia. Qed.

(** S_OK is returned only with the version that the resource of the module contains. *)
Theorem C121_found : forall os s v, codes s -> module_version os s = (v, Returned 0) ->
  read_ls s = Gives (low v) /\ read_ms s = Gives (high v) /\ find s = Gives tt /\ query s = Gives tt.
Proof.
  intros os s v (C1 & C2 & C3 & C4 & C5 & C6) R. unfold module_version in R. pose proof disk_fails as DF.
  destruct (find s) as [[]|err|e]; cbn [next caught] in R; [|injection R as _ X; pose proof (hr_fails err C1); lia|destruct e; [injection R as _ X; lia|discriminate R]].
  destruct (load s) as [[]|err|e]; cbn [next caught] in R; [|injection R as _ X; pose proof (hr_fails err C2); lia|destruct e; [injection R as _ X; lia|discriminate R]].
  assert (CC : code (if internal (parts 6 0 0 0) <=? internal os then Gives tt else copy s)) by (destruct (_ <=? _); [exact I|exact C3]).
  destruct (if internal (parts 6 0 0 0) <=? internal os then Gives tt else copy s) as [[]|err|e]; cbn [next caught] in R; [|injection R as _ X; pose proof (hr_fails err CC); lia|destruct e; [injection R as _ X; lia|discriminate R]].
  destruct (query s) as [[]|err|e]; cbn [next caught] in R; [|injection R as _ X; pose proof (hr_fails err C4); lia|destruct e; [injection R as _ X; lia|discriminate R]].
  destruct (read_ls s) as [ls|err|e]; cbn [next caught] in R; [|injection R as _ X; pose proof (hr_fails err C5); lia|destruct e; [injection R as _ X; lia|discriminate R]].
  destruct (read_ms s) as [ms|err|e]; cbn [next caught low high] in R; [|injection R as _ X; pose proof (hr_fails err C6); lia|destruct e; [injection R as _ X; lia|discriminate R]].
  injection R as <-. cbn. auto.
Qed.
(** Full statement (C121): after a failure the version is 0.0.0.0.  Missing: a disk error between the two reads. *)
Theorem C121_zero_partial : forall os open s v hr n, file_version os open s = (v, Returned hr, n) -> hr <> 0 ->
  (forall ls, read_ls s = Gives ls -> exists ms, read_ms s = Gives ms) -> internal v = 0.
Proof.
  intros os open s v hr n R N G. unfold file_version in R. destruct open as [u|err|e]; [|injection R as <- _ _; reflexivity|discriminate R].
  unfold module_version in R. destruct (find s) as [a|a|[|]]; cbn [next caught] in R; try (injection R as <- _ _; reflexivity); try discriminate R.
  destruct (load s) as [b|b|[|]]; cbn [next caught] in R; try (injection R as <- _ _; reflexivity); try discriminate R.
  destruct (if internal (parts 6 0 0 0) <=? internal os then Gives tt else copy s) as [c|c|[|]]; cbn [next caught] in R; try (injection R as <- _ _; reflexivity); try discriminate R.
  destruct (query s) as [d|d|[|]]; cbn [next caught] in R; try (injection R as <- _ _; reflexivity); try discriminate R.
  destruct (read_ls s) as [ls|ls|[|]]; cbn [next caught] in R; try (injection R as <- _ _; reflexivity); try discriminate R.
  destruct (G ls eq_refl) as (ms & M). rewrite M in R. cbn [next] in R. injection R as _ X _. congruence.
Qed.
(** A disk error at line 71 leaves half of the version behind, with a failure. *)
Theorem C121_zero_refuted : forall os ls, ls <> 0 -> exists s v hr, codes s /\ file_version os (Gives tt) s = (v, Returned hr, 0) /\ hr < 0 /\ internal v = ls.
Proof.
  intros os ls N. exists (Ans (Gives tt) (Gives tt) (Gives tt) (Gives tt) (Gives ls) (Raises Disk)), (V ls 0), (hr_of disk_failed). split; [repeat split|].
  split; [|split; [exact disk_fails|reflexivity]]. unfold file_version, module_version. cbn [find load copy query read_ls read_ms next].
  destruct (internal (parts 6 0 0 0) <=? internal os); reflexivity.
Qed.
(** The module is freed whenever the function returns; only an exception that the filter does not take leaves it loaded. *)
Theorem C121_freed : forall os open s v e n, file_version os open s = (v, e, n) -> n = 0 \/
  (n = 1 /\ e = Left /\ (find s = Raises Other \/ load s = Raises Other \/ copy s = Raises Other \/ query s = Raises Other \/ read_ls s = Raises Other \/ read_ms s = Raises Other)).
Proof.
  intros os open s v e n R. unfold file_version in R. destruct open as [u|err|x]; [|injection R as _ _ <-; auto..].
  destruct (module_version os s) as [w z] eqn:M. injection R as _ <- <-. destruct z as [hr|]; [left; lia|right]. split; [reflexivity|]. split; [reflexivity|].
  unfold module_version in M.
  destruct (find s) as [a|a|[|]]; cbn [next caught] in M; try discriminate M; auto.
  destruct (load s) as [b|b|[|]]; cbn [next caught] in M; try discriminate M; auto.
  destruct (internal (parts 6 0 0 0) <=? internal os); cbn [next] in M; [|destruct (copy s) as [c|c|[|]]; cbn [next caught] in M; try discriminate M; auto];
    (destruct (query s) as [d|d|[|]]; cbn [next caught] in M; try discriminate M; auto);
    (destruct (read_ls s) as [ls|ls|[|]]; cbn [next caught] in M; try discriminate M; auto 6);
    (destruct (read_ms s) as [ms|ms|[|]]; cbn [next caught] in M; try discriminate M; auto 7).
Qed.
(** The copy that old systems need is made exactly on systems before 6.0: on newer ones its answer does not matter. *)
Definition u16_ok (x : Z) : Prop := 0 <= x < 2 ^ 16.
Lemma set_rev_bounds : forall major minor build r, u16_ok build -> u16_ok r -> set_revision (parts major minor build 0) r = parts major minor build r.
Proof. intros major minor build r B R. unfold set_revision, parts. cbn [low high]. f_equal. rewrite Z.add_0_r, Z.div_mul by lia. reflexivity. Qed.
Lemma os_shape : forall major minor build sp, u16_ok major -> u16_ok minor -> u16_ok build -> exists r, u16_ok r /\ os_version major minor build sp = parts major minor build r.
Proof.
  intros major minor build sp A B C. unfold os_version, u16, u16_ok in *. rewrite !Z.mod_small by lia.
  assert (P : forall r, u16_ok r -> exists r', 0 <= r' < 2 ^ 16 /\ set_revision (parts major minor build 0) r = parts major minor build r').
  { intros r Q. exists r. split; [exact Q|]. apply set_rev_bounds; assumption. }
  assert (Q : exists r, 0 <= r < 2 ^ 16 /\ parts major minor build 0 = parts major minor build r) by (exists 0; split; [lia|reflexivity]).
  destruct (_ =? internal nt51); [|destruct (_ =? internal nt52)]; repeat (match goal with |- context [if ?b then _ else _] => destruct b end); first [exact Q|apply P; unfold u16_ok; lia].
Qed.
Theorem C121_os : forall major minor build sp, u16_ok major -> u16_ok minor -> u16_ok build ->
  (internal (parts 6 0 0 0) <= internal (os_version major minor build sp) <-> 6 <= major) /\
  exists r, u16_ok r /\ os_version major minor build sp = parts major minor build r.
Proof.
  intros major minor build sp A B C. destruct (os_shape major minor build sp A B C) as (r & R & E). split; [|exists r; auto]. rewrite E.
  unfold internal, parts, u16_ok in *. cbn [low high]. lia.
Qed.
Theorem C121_copy : forall major minor build sp s c, u16_ok major -> u16_ok minor -> u16_ok build -> 6 <= major ->
  module_version (os_version major minor build sp) s = module_version (os_version major minor build sp) (Ans (find s) (load s) c (query s) (read_ls s) (read_ms s)).
Proof.
  intros major minor build sp s c A B C M. destruct (C121_os major minor build sp A B C) as ((_ & H) & _). apply H in M. apply Z.leb_le in M.
  unfold module_version. cbn [find load copy query read_ls read_ms]. rewrite M. reflexivity.
Qed.
(** A later service pack never makes the system look older. *)
Theorem C121_packs : forall major minor build sp sp', u16_ok major -> u16_ok minor -> u16_ok build -> 0 <= sp <= sp' ->
  internal (os_version major minor build sp) <= internal (os_version major minor build sp').
Proof.
  intros major minor build sp sp' A B C L. unfold os_version, u16, u16_ok in *. rewrite !Z.mod_small by lia.
  set (v := parts major minor build 0). assert (S : forall r, u16_ok r -> internal (set_revision v r) = internal v + r).
  { intros r R. unfold v. rewrite set_rev_bounds by (unfold u16_ok in *; lia). unfold internal, parts. cbn [low high]. lia. }
  destruct (internal v =? internal nt51); [|destruct (internal v =? internal nt52); [|lia]].
  - destruct (Z.eqb_spec sp 0), (Z.eqb_spec sp' 0), (Z.eqb_spec sp 1), (Z.eqb_spec sp' 1), (Z.eqb_spec sp 2), (Z.eqb_spec sp' 2); try lia; rewrite ?S by (unfold u16_ok; lia); lia.
  - destruct (Z.eqb_spec sp 0), (Z.eqb_spec sp' 0); try lia; rewrite ?S by (unfold u16_ok; lia); lia.
Qed.

Example C121_case : module_version (os_version 10 0 19041 0) (Ans (Gives tt) (Gives tt) (Raises Other) (Gives tt) (Gives 655360) (Gives 65538)) = (V 655360 65538, Returned 0).
Proof. reflexivity. Qed.
Example C121_no_resource : file_version (os_version 5 1 2600 3) (Gives tt) (Ans (Fails 1813) (Gives tt) (Gives tt) (Gives tt) (Gives 1) (Gives 1)) = (V 0 0, Returned (-2147023083), 0).
Proof. reflexivity. Qed.
Example C121_xp_sp2 : os_version 5 1 2600 2 = parts 5 1 2600 2180 /\ os_version 5 2 3790 2 = parts 5 2 3790 1830.
Proof. split; reflexivity. Qed.

Print Assumptions C121_found.
Print Assumptions C121_zero_partial.
Print Assumptions C121_zero_refuted.
Print Assumptions C121_freed.
Print Assumptions C121_os.
Print Assumptions C121_copy.
Print Assumptions C121_packs.
