(** * Specification vocabulary for graphs *)
From Coq Require Import List Lia.
Import ListNotations.

(** n is listed among indices[indptr[m] .. indptr[m+1]-1] *)
Definition adj (indptr indices : list nat) (m n : nat) : Prop :=
  exists a b j, nth_error indptr m = Some a /\ nth_error indptr (S m) = Some b
    /\ a <= j < b /\ nth_error indices j = Some n.

(** the nodes listed there, in order *)
Definition listed (indptr indices : list nat) (m : nat) : list nat :=
  let a := nth m indptr 0 in firstn (nth (S m) indptr 0 - a) (skipn a indices).

(** a graph on nodes 0..N-1 in CSR format *)
Definition csr (N : nat) (indptr indices : list nat) : Prop :=
  length indptr = S N /\ forall m n, m < N -> adj indptr indices m n -> n < N.

(** there is a walk of k steps along E from root to the node, all of whose
    nodes (root included) satisfy ok *)
Inductive walk (E : nat -> nat -> Prop) (ok : nat -> Prop) (root : nat) : nat -> nat -> Prop :=
| walk_0 : ok root -> walk E ok root 0 root
| walk_S k m n : walk E ok root k m -> E m n -> ok n -> walk E ok root (S k) n.

Definition reach E ok root n := exists k, walk E ok root k n.

(** graph distance *)
Definition dist E ok root n k := walk E ok root k n /\ forall j, walk E ok root j n -> k <= j.

Definition mask (good : list bool) (n : nat) : Prop := nth_error good n = Some true.

(** the opposite end points of the edges at node m, in the order of the edges;
    a self loop counts twice *)
Fixpoint nbrs (edges : list (nat * nat)) (m : nat) : list nat :=
  match edges with
  | [] => []
  | (a, b) :: r => (if Nat.eqb a m then [b] else []) ++ (if Nat.eqb b m then [a] else []) ++ nbrs r m
  end.

(** sum of the degrees of the nodes below m *)
Fixpoint deg_sum (edges : list (nat * nat)) (m : nat) : nat :=
  match m with O => 0 | S k => deg_sum edges k + length (nbrs edges k) end.

Definition in_range (edges : list (nat * nat)) (N : nat) : Prop :=
  forall a b, In (a, b) edges -> a < N /\ b < N.

(** e joins m and n, in either direction *)
Definition joins (e : nat * nat) (m n : nat) : Prop := e = (m, n) \/ e = (n, m).

(** every edge joins two nodes below N that are adjacent, and every such pair
    is joined by exactly one edge *)
Definition each_pair_once (adjacent : nat -> nat -> Prop) (N : nat) (edges : list (nat * nat)) : Prop :=
  (forall k a b, nth_error edges k = Some (a, b) -> a < N /\ b < N /\ adjacent a b)
  /\ forall m n, m < N -> n < N -> adjacent m n ->
       exists k e, nth_error edges k = Some e /\ joins e m n
         /\ forall k' e', nth_error edges k' = Some e' -> joins e' m n -> k' = k.

(** the k-th value is the entry of the matrix for the k-th edge *)
Definition values_of {A} (M : nat -> nat -> A) (edges : list (nat * nat)) (v : list A) : Prop :=
  length v = length edges
  /\ forall k a b, nth_error edges k = Some (a, b) -> nth_error v k = Some (M a b).
