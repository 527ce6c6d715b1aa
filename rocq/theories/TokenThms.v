(** Theorems about the token caches, the impersonation scope and LowPrivilegeCreateProcessW. *)
From Coq Require Import List Bool Arith Lia.
From Verif Require Import Slots SlotsProofs Threads TokenModel TokenProofs TokenScope TokenClean.
Import ListNotations.

Definition reached (e : elev) (s : st) : Prop := exists l, run (init e) l = Some s.
Definition is_open (s : st) (h : nat) : Prop := exists k, In (h, k) (opn s).
Definition cached (s : st) (h : nat) : Prop := cs s = Some h \/ cl s = Some h \/ ci s = Some h.
Definition finished (s : st) : Prop := forall i a, nth_error (ag s) i = Some a -> stk a = [].
Lemma reached_ALL : forall e s, reached e s -> ALL s.
Proof. intros e s (l & R). exact (run_ALL _ _ _ (init_ALL e) R). Qed.
Lemma reached_el : forall e s, reached e s -> el s = e.
Proof. intros e s (l & R). exact (proj1 (run_Mono _ _ _ (init_INV e) R)). Qed.
Lemma ch_map : forall (l : list (nat * kind)) h, 1 <= ch h (map fst l) <-> exists k, In (h, k) l.
Proof.
  induction l as [|[g k] l IH]; intros h; cbn; [split; [lia|intros (k & [])]|]. destruct (Nat.eqb_spec g h) as [->|N]; [rewrite eq1_eq|rewrite (eq1_ne g h N)].
  - split; [exists k; left; reflexivity|lia].
  - change (0 + ch h (map fst l)) with (ch h (map fst l)). rewrite IH. split; [intros (k' & H); exists k'; right; exact H|intros (k' & [H|H]); [congruence|eauto]].
Qed.
Lemma is_open_cn : forall s h, is_open s h <-> 1 <= cn s h.
Proof. intros s h. unfold is_open, cn. symmetry. apply ch_map. Qed.

(** C111: the handle a getter has published is never replaced and never closed, whatever other threads do. *)
Theorem C111_once : forall e s k s', reached e s -> run s k = Some s' ->
  (forall h, cs s = Some h -> cs s' = Some h /\ is_open s' h) /\ (forall h, cl s = Some h -> cl s' = Some h /\ is_open s' h) /\ (forall h, ci s = Some h -> ci s' = Some h /\ is_open s' h).
Proof.
  intros e s k s' R RR. destruct (reached_ALL _ _ R) as (I & _). pose proof (run_INV _ _ _ I RR) as I'. destruct (run_Mono _ _ _ I RR) as (_ & A & B & C & _).
  split; [|split]; intros h H; (split; [auto|]); apply is_open_cn; eapply cached_open; eauto.
Qed.
(** Every getter that returns leaves its own cache as it finds it or fills it; no handle is closed twice, and when all
    calls have returned the open handles are exactly the published ones. *)
Theorem C111_handles : forall e s, reached e s ->
  (forall i, ~ In (i, EBad) (log s)) /\ NoDup (map fst (opn s)) /\ (finished s -> forall h, is_open s h <-> cached s h).
Proof.
  intros e s R. destruct (reached_ALL _ _ R) as ((A & B & _ & D & _) & _). split; [exact D|]. split.
  - unfold cn in B. clear -B. induction (opn s) as [|[g k] l IH]; cbn in *; [constructor|]. constructor.
    + intros X. apply in_map_iff in X. destruct X as ((g' & k') & <- & X). cbn in *. specialize (B g'). rewrite eq1_eq in B. assert (1 <= ch g' (map fst l)) by (apply ch_map; eauto). lia.
    + apply IH. intros h. specialize (B h). lia.
  - intros F h. rewrite is_open_cn, A.
    assert (Z : suml (fun a => ch h (hsl (stk a))) (ag s) = 0).
    { destruct (suml (fun a => ch h (hsl (stk a))) (ag s)) eqn:X; [reflexivity|]. destruct (suml_pos _ (fun a => ch h (hsl (stk a))) (ag s)) as (i & a & G & P); [lia|]. rewrite (F i a G) in P. cbn in P. lia. }
    rewrite Z. unfold ca, cached, TokenProofs.c1, eq1. destruct (cs s) as [x|], (cl s) as [y|], (ci s) as [z|];
    repeat match goal with |- context [Nat.eqb ?a ?b] => destruct (Nat.eqb_spec a b) end; subst; cbn; split; intros; try lia; try tauto; intuition congruence.
Qed.
(** What is published is a token of the kind the getter promises, and a limited token is never the full one. *)
Theorem C111_kinds : forall e s, reached e s ->
  (forall h, cs s = Some h -> exists b, kd (opn s) h = Some (KSys b)) /\ (forall h, ci s = Some h -> exists b, kd (opn s) h = Some (KImp b)) /\
  (forall h, cl s = Some h -> (e = Full /\ exists b, kd (opn s) h = Some (KLnk b)) \/ (e = Limited /\ kd (opn s) h = Some KCur)).
Proof.
  intros e s R. destruct (reached_ALL _ _ R) as (_ & ((A & B & C) & _) & _). rewrite <- (reached_el _ _ R). split; [exact A|]. split; [exact C|exact B].
Qed.
Definition ok (i n : nat) : list act := repeat (Step i Ok) n.
(** The process is found by its name only: any program called winlogon.exe in the session will do. *)
Theorem C111_name_refuted : exists s, reached Full s /\ cs s = Some 2 /\ kd (opn s) 2 = Some (KSys false) /\ finished s.
Proof.
  eexists. split; [exists (Go GetSystemToken None :: ok 0 3 ++ Step 0 Denied :: ok 0 3); vm_compute; reflexivity|]. split; [reflexivity|]. split; [reflexivity|].
  intros [|[|i]] a G; cbn in G; try discriminate. injection G as <-. reflexivity.
Qed.
(** Two threads race for the system token: the loser's is closed. *)
Example C111_race : exists s, run (init Full) (Go GetSystemToken None :: Go GetSystemToken (Some 3) :: ok 0 5 ++ ok 1 5 ++ ok 1 2 ++ Step 0 Ok :: ok 0 1) = Some s
  /\ cs s = Some 5 /\ opn s = [(5, KSys true)] /\ finished s.
Proof.
  eexists. split; [vm_compute; reflexivity|]. split; [reflexivity|]. split; [reflexivity|].
  intros [|[|[|i]]] a G; cbn in G; try discriminate; injection G as <-; reflexivity.
Qed.

(** C112: unless SetThreadToken fails at the end of a scope, a thread whose call has returned has the token it had
    when it made the call; and CreateProcessW is always called with that token. *)
Theorem C112_partial : forall e s i a, reached e s -> nth_error (ag s) i = Some a -> ~ In (i, EKeep) (log s) ->
  (stk a = [] -> cur a = own a) /\ (stk a = [Q9] -> cur a = own a) /\ (forall c, In (i, EProc false c) (log s) -> c = own a).
Proof.
  intros e s i a R G N. destruct (reached_ALL _ _ R) as (_ & _ & A & V). destruct (A i a G) as (g & q & SK & FG & Q & _). split; [|split].
  - intros Z. rewrite Z in SK. symmetry in SK. apply app_eq_nil in SK. destruct SK as (-> & ->). cbn in Q. tauto.
  - intros Z. rewrite Z in SK. destruct g as [|x g]; cbn in SK; [subst q; cbn in Q; tauto|]. injection SK as <- _. discriminate.
  - intros c X. destruct (V i _ X) as (b & Gb & Y). rewrite G in Gb. injection Gb as <-. cbn in Y. tauto.
Qed.
(** If it fails, nobody is told, and the thread goes on as the system after its call has returned S_OK. *)
Theorem C112_refuted : exists s, reached Full s /\ nth_error (ag s) 0 = Some (AG None (Some (Sys true)) []) /\ In (0, ERet true) (log s).
Proof. eexists. split; [exists (Go LowPrivilegeCreateProcess None :: ok 0 24 ++ [Step 0 Fail]); vm_compute; reflexivity|]. split; [reflexivity|]. cbn. auto 10. Qed.
(** Privileges are enabled in the token of the system, unless the scope could not be entered... *)
Theorem C112_priv_partial : forall e s i a c, reached e s -> nth_error (ag s) i = Some a -> In (i, EPriv c) (log s) -> (exists g, c = Some (Sys g)) \/ (c = own a /\ In (i, EFail) (log s)).
Proof. intros e s i a c R G X. destruct (reached_ALL _ _ R) as (_ & _ & _ & V). destruct (V i _ X) as (b & Gb & Y). rewrite G in Gb. injection Gb as <-. exact Y. Qed.
(** ... since its status is not looked at: then they are enabled in the caller's own token, and stay so. *)
Theorem C112_priv_refuted : exists s, reached Full s /\ nth_error (ag s) 0 = Some (AG (Some (User 5)) (Some (User 5)) []) /\ In (0, EPriv (Some (User 5))) (log s) /\ In (0, ERet true) (log s).
Proof.
  eexists. split; [exists (Go LowPrivilegeCreateProcess (Some 5) :: ok 0 14 ++ Step 0 Fail :: ok 0 1 ++ ok 0 5 ++ Step 0 Fail :: ok 0 2); vm_compute; reflexivity|]. split; [reflexivity|]. cbn. auto 10.
Qed.
Example C112_own_token : exists s, run (init Full) (Go LowPrivilegeCreateProcess (Some 5) :: ok 0 25) = Some s
  /\ nth_error (ag s) 0 = Some (AG (Some (User 5)) (Some (User 5)) []) /\ log s = [(0, EPriv (Some (Sys true))); (0, EProc true (Some (Sys true))); (0, ERet true)] /\ length (opn s) = 3.
Proof. eexists. split; [vm_compute; reflexivity|]. auto. Qed.

(** C113: a call that returns S_OK has created one process, before it returned; a call that returns an error has
    created none. *)
Theorem C113_one : forall e s i a, reached e s -> nth_error (ag s) i = Some a -> stk a = [] ->
  acts i (log s) = [] \/ acts i (log s) = [ERet false] \/ exists l t, acts i (log s) = [EProc l t; ERet true].
Proof.
  intros e s i a R G Z. destruct (reached_ALL _ _ R) as (_ & _ & A & _). destruct (A i a G) as (g & q & SK & _ & Q & _).
  rewrite Z in SK. symmetry in SK. apply app_eq_nil in SK. destruct SK as (-> & ->). exact (proj2 Q).
Qed.
(** A process with the full token that asks for nothing but this call gets limited processes, if no call of the
    system fails and winlogon.exe is the real one. *)
Theorem C113_partial : forall l s, run (init Full) l = Some s -> (forall u, ~ In (Go GetLimitedToken u) l) -> (forall i, ~ In (i, EFail) (log s) /\ ~ In (i, EFake) (log s)) ->
  forall i, (forall b c, In (i, EProc b c) (log s) -> b = true) /\ (forall b, In (i, ERet b) (log s) -> b = true).
Proof.
  intros l s R NA NF i. assert (C : Clean s).
  { apply (run_Clean _ _ _ (init_INV Full) init_Clean R).
    - apply forallb_forall. intros a X. destruct a as [[]|]; cbn; auto. destruct (NA u X).
    - intros (j & x & X & [-> | ->]); [exact (proj1 (NF j) X)|exact (proj2 (NF j) X)]. }
  split; [intros b c X|intros b X]; exact (n_ev _ C _ _ X).
Qed.
(** Once the limited token was asked for by a thread that is not the system, or the elevation type could not be read
    the first time, no later call creates a limited process. *)
Theorem C113_spoilt : forall s k s', reached Full s ->
  (exists h, cl s = Some h /\ kd (opn s) h = Some (KLnk false)) \/ (exists e, se s = Some e /\ e <> Full) ->
  run s k = Some s' -> exists new, log s' = log s ++ new /\ forall i c, ~ In (i, EProc true c) new.
Proof.
  intros s k s' R SP RR. destruct (reached_ALL _ _ R) as (I & _). pose proof (reached_el _ _ R) as EL. destruct R as (l & R).
  apply (run_spoilt k s s' I); [exact (run_SQ _ _ _ (init_INV Full) (init_SQ Full) R)|split; assumption|exact RR].
Qed.
(** So a call can return S_OK having created a process with all rights. *)
Theorem C113_refuted : exists s, reached Full s /\ nth_error (ag s) 1 = Some (AG None None []) /\ acts 1 (log s) = [EProc false None; ERet true].
Proof.
  eexists. split; [exists (Go GetLimitedToken None :: ok 0 5 ++ Go LowPrivilegeCreateProcess None :: ok 1 18 ++ Step 1 Fail :: ok 1 2); vm_compute; reflexivity|]. split; reflexivity.
Qed.
Example C113_spoilt_case : exists s, run (init Full) (Go GetLimitedToken None :: ok 0 5) = Some s /\ cl s = Some 1 /\ kd (opn s) 1 = Some (KLnk false).
Proof. eexists. split; [vm_compute; reflexivity|]. auto. Qed.
Example C113_denied : exists s, run (init Full) (Go LowPrivilegeCreateProcess None :: ok 0 23 ++ Step 0 Denied :: ok 0 2) = Some s
  /\ acts 0 (log s) = [EProc false None; ERet true] /\ nth_error (ag s) 0 = Some (AG None None []).
Proof. eexists. split; [vm_compute; reflexivity|]. split; reflexivity. Qed.

Print Assumptions C111_once.
Print Assumptions C111_handles.
Print Assumptions C111_kinds.
Print Assumptions C111_name_refuted.
Print Assumptions C112_partial.
Print Assumptions C112_refuted.
Print Assumptions C112_priv_partial.
Print Assumptions C112_priv_refuted.
Print Assumptions C113_one.
Print Assumptions C113_partial.
Print Assumptions C113_spoilt.
Print Assumptions C113_refuted.
