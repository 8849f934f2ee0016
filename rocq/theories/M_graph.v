(** * Model of neutralocean/grid/graph.py

    Edges are given as the list of pairs (a[i], b[i]); node labels are natural
    numbers.  (Arrays a and b of different lengths are not represented.) *)
From Coq Require Import ZArith Bool List.
From Verif Require Import Num Res Arr.
Import ListNotations.

(** max(np.max(a), np.max(b)); np.max raises on an empty array *)
Definition max_node (edges : list (nat * nat)) : res nat :=
  match edges with
  | [] => Err ValueError
  | (a, b) :: r => Ok (fold_left (fun m e => Nat.max m (Nat.max (fst e) (snd e))) r (Nat.max a b))
  end.

(** graph.py:89-90, 134-135; None stands for a negative N *)
Definition num_nodes (edges : list (nat * nat)) (N : option nat) : res nat :=
  match N with
  | Some n => Ok n
  | None => let! m := max_node edges in Ok (S m)
  end.

(** x[n] += 1 *)
Definition incr (x : list nat) (n : nat) : res (list nat) :=
  let! v := get x n in set x n (S v).

(** graph.py:138-141 *)
Definition degrees (edges : list (nat * nat)) (N : nat) : res (list nat) :=
  for_each edges (fun e deg => let! deg := incr deg (fst e) in incr deg (snd e)) (repeat 0 N).

(** graph.py:144, 149-151; [junk] is the content of np.empty *)
Definition cumul (junk : list nat) (deg : list nat) (N : nat) : res (list nat) :=
  let! indptr := set (firstn (N + 1) junk) 0 0 in
  for_range 0 N
    (fun i indptr => let! p := get indptr i in let! d := get deg i in set indptr (i + 1) (p + d)) indptr.

(** graph.py:161-163, 166-168: append v to the neighbours of n *)
Definition insert (n v : nat) (st : list nat * list nat) : res (list nat * list nat) :=
  let (indices, ctr) := st in
  let! c := get ctr n in
  let! indices := set indices c v in
  let! ctr := incr ctr n in
  Ok (indices, ctr).

(** graph.py:98-170 *)
Definition edges_to_csr (junk_p junk_i : list nat) (edges : list (nat * nat)) (N : option nat)
  : res (list nat * list nat) :=
  let! N := num_nodes edges N in
  let! deg := degrees edges N in
  let sum_deg := fold_left Nat.add deg 0 in
  let! indptr := cumul junk_p deg N in
  let! r := for_each edges
    (fun e st => let! st := insert (fst e) (snd e) st in insert (snd e) (fst e) st)
    (firstn sum_deg junk_i, indptr) in
  Ok (indptr, fst r).

Section Values.
  Context {F : Type} {Nm : Num F}.

  (** graph.py:9-53, for non-negative labels.  binary_fcn does not raise. *)
  Definition graph_binary_fcn (edges : list (nat * nat)) (nodevals : list F) (binary_fcn : F -> F -> F) : res (list F) :=
    mapM (fun e => let! x := get nodevals (fst e) in let! y := get nodevals (snd e) in Ok (binary_fcn x y)) edges.

  (** graph.py:9-53 with integer labels: d[-j] counts from the end in compiled code *)
  Definition get_wrap (d : list F) (i : Z) : res F :=
    if (i <? 0)%Z then
      if (i + Z.of_nat (length d) <? 0)%Z then Err OutOfBounds else get d (Z.to_nat (i + Z.of_nat (length d)))
    else get d (Z.to_nat i).
  Definition graph_binary_fcn_Z (edges : list (Z * Z)) (nodevals : list F) (binary_fcn : F -> F -> F) : res (list F) :=
    mapM (fun e => let! x := get_wrap nodevals (fst e) in let! y := get_wrap nodevals (snd e) in Ok (binary_fcn x y)) edges.

  (** Matrices are functions of row and column.  coo_matrix((weights, edges))
      sums the weights of repeated entries, in order of appearance. *)
  Definition coo_entry (edges : list (nat * nat)) (weights : list F) (m n : nat) : F :=
    fold_left add
      (map snd (filter (fun ew => Nat.eqb (fst (fst ew)) m && Nat.eqb (snd (fst ew)) n) (combine edges weights)))
      zero.

  (** graph.py:56-94 without the sparse storage: the matrix G + G^T.
      N is only the shape; coo_matrix raises when a label exceeds it. *)
  Definition edges_to_graph (edges : list (nat * nat)) (N : option nat) (weights : list F) : res (nat -> nat -> F) :=
    let! N := num_nodes edges N in
    if forallb (fun e => Nat.ltb (fst e) N && Nat.ltb (snd e) N) edges
       && Nat.eqb (length weights) (length edges)
    then Ok (fun m n => add (coo_entry edges weights m n) (coo_entry edges weights n m))
    else Err ValueError.

  (** ** build_grid, for dense n by n matrices *)
  Notation matrix := (nat -> nat -> F).

  (** all pairs (i, j), row by row and column by column *)
  Definition rowmajor (n : nat) : list (nat * nat) :=
    flat_map (fun i => map (fun j => (i, j)) (seq 0 n)) (seq 0 n).
  Definition colmajor (n : nat) : list (nat * nat) :=
    flat_map (fun j => map (fun i => (i, j)) (seq 0 n)) (seq 0 n).

  (** scipy.sparse.find: row, column and value of the nonzero entries, in the
      given order.  A dense matrix is traversed row by row; the result of
      scipy.sparse.triu is not in canonical format and is sorted by columns. *)
  Definition find (ord : list (nat * nat)) (A : matrix) : list (nat * nat * F) :=
    map (fun ij => (ij, A (fst ij) (snd ij)))
        (filter (fun ij => negb (eqb (A (fst ij) (snd ij)) zero)) ord).

  (** scipy.sparse.triu *)
  Definition triu (A : matrix) : matrix := fun i j => if Nat.leb i j then A i j else zero.

  (** scipy.linalg.issymmetric *)
  Definition issymmetric (n : nat) (A : matrix) : bool :=
    forallb (fun ij => eqb (A (fst ij) (snd ij)) (A (snd ij) (fst ij))) (rowmajor n).

  (** graph.py:246-259 *)
  Definition sym_structure (n : nat) (A : matrix) : bool :=
    forallb (fun ij => Bool.eqb (eqb (A (fst ij) (snd ij)) zero) (eqb (A (snd ij) (fst ij)) zero)) (rowmajor n).

  (** find(triu(A)) if the test holds, else find(A) *)
  Definition find_triu_if (sym : bool) (n : nat) (A : matrix) : list (nat * nat * F) :=
    if sym then find (colmajor n) (triu A) else find (rowmajor n) A.
  (** graph.py:262-267, 226-227 *)
  Definition find_triu_if_sym (n : nat) (A : matrix) := find_triu_if (issymmetric n A) n A.
  (** graph.py:270-275, 237-238 *)
  Definition find_triu_if_sym_structure (n : nat) (A : matrix) := find_triu_if (sym_structure n A) n A.

  (** np.array_equal of index arrays *)
  Definition same_pairs (l l' : list (nat * nat)) : bool :=
    Nat.eqb (length l) (length l')
    && forallb (fun p => Nat.eqb (fst (fst p)) (fst (snd p)) && Nat.eqb (snd (fst p)) (snd (snd p))) (combine l l').

  (** graph.py:223-234: edges, dist, distperp *)
  Definition build_grid_dict (n : nat) (dist distperp : matrix) : res (list (nat * nat) * list F * list F) :=
    let D := find_triu_if_sym n dist in
    let P := find_triu_if_sym n distperp in
    if same_pairs (map fst D) (map fst P) then Ok (map fst D, map snd D, map snd P) else Err ValueError.

  (** graph.py:237-241 *)
  Definition build_grid_matrix (n : nat) (G : matrix) : list (nat * nat) * list F * list F :=
    let e := map fst (find_triu_if_sym_structure n G) in
    (e, repeat (lit 1 0) (length e), repeat (lit 1 0) (length e)).
End Values.
