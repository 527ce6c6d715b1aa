(** Model of [HashSet] (include/YY/Base/Containers/HashSet.h).

    Keys are pointers, taken as integers (0 is [nullptr]).  A bucket chain is the list of
    its nodes, each a node name and its [Data]; [hs_live] is the list of nodes obtained
    from the allocator and not freed. *)
From Coq Require Import ZArith Lia Bool List.
Import ListNotations.
Local Open Scope Z_scope.

Definition node := (nat * Z)%type.
Record hset := mkhs { hs_buckets : list (list node); hs_live : list nat; hs_next : nat }.

(** HashSet.h:27-30; [n] is [_uBuckets]. *)
Definition hs_init (n : nat) : hset := mkhs (repeat [] n) [] 0.

Definition S_OK : Z := 0.
Definition S_FALSE : Z := 1.
Definition E_OUTOFMEMORY : Z := -2147024882.

Definition bucket (n : nat) (k : Z) : nat := Z.to_nat (k mod Z.of_nat n).
Fixpoint set_bucket (bs : list (list node)) (i : nat) (b : list node) : list (list node) :=
  match bs, i with
  | [], _ => []
  | _ :: t, O => b :: t
  | x :: t, S i' => x :: set_bucket t i' b
  end.

(** HashSet.h:64-68. *)
Fixpoint chain_has (b : list node) (k : Z) : bool :=
  match b with
  | [] => false
  | (_, d) :: t => if d =? k then true else chain_has t k
  end.

(** HashSet.h:60-81; [mem]: does the allocation succeed. *)
Definition Insert (n : nat) (s : hset) (k : Z) (mem : bool) : hset * Z :=
  let i := bucket n k in
  let b := nth i (hs_buckets s) [] in
  if chain_has b k then (s, S_FALSE)
  else if negb mem then (s, E_OUTOFMEMORY)
  else (mkhs (set_bucket (hs_buckets s) i ((hs_next s, k) :: b))
             (hs_next s :: hs_live s) (S (hs_next s)), S_OK).

(** HashSet.h:88-109: the chain without the first node holding the key, and that node. *)
Fixpoint chain_remove (b : list node) (k : Z) : option (list node * nat) :=
  match b with
  | [] => None
  | (a, d) :: t => if d =? k then Some (t, a)
                   else match chain_remove t k with
                        | Some (t', a') => Some ((a, d) :: t', a')
                        | None => None
                        end
  end.

Definition free (live : list nat) (a : nat) : list nat := remove Nat.eq_dec a live.

(** HashSet.h:83-112. *)
Definition Remove (n : nat) (s : hset) (k : Z) : hset * Z :=
  let i := bucket n k in
  match chain_remove (nth i (hs_buckets s) []) k with
  | Some (b, a) => (mkhs (set_bucket (hs_buckets s) i b) (free (hs_live s) a) (hs_next s), S_OK)
  | None => (s, S_FALSE)
  end.

(** HashSet.h:45-58: the first node of the first bucket that has one; it is not freed. *)
Fixpoint pop_buckets (bs : list (list node)) : option (list (list node) * Z) :=
  match bs with
  | [] => None
  | [] :: t => match pop_buckets t with
               | Some (t', k) => Some ([] :: t', k)
               | None => None
               end
  | ((_, d) :: b) :: t => Some (b :: t, d)
  end.
Definition Pop (s : hset) : hset * Z :=
  match pop_buckets (hs_buckets s) with
  | Some (bs, k) => (mkhs bs (hs_live s) (hs_next s), k)
  | None => (s, 0)
  end.

(** HashSet.h:32-43: the nodes still allocated after the destructor. *)
Definition Destroy (s : hset) : list nat :=
  fold_left (fun live '(a, _) => free live a) (concat (hs_buckets s)) (hs_live s).

Inductive hop := HInsert (k : Z) (mem : bool) | HRemove (k : Z) | HPop.
Definition hstep (n : nat) (s : hset) (o : hop) : hset * Z :=
  match o with
  | HInsert k mem => Insert n s k mem
  | HRemove k => Remove n s k
  | HPop => Pop s
  end.
Fixpoint hruns (n : nat) (s : hset) (ops : list hop) : hset * list Z :=
  match ops with
  | [] => (s, [])
  | o :: ops' => let '(s1, r) := hstep n s o in
                 let '(s2, rs) := hruns n s1 ops' in (s2, r :: rs)
  end.
