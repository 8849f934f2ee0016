(** * Properties C19, C24, C25, C48, C49: graphs (grid/graph.py, grid/tools.py) *)
From Coq Require Import ZArith Bool Reals List.
From Verif Require Import Num SF Res Arr Nd M_graph M_lib S_graph S_labels S_lib S_args P_csr P_graph P_graph2 P_lib P_div P_args Ex_graph.
Import ListNotations.
Local Open Scope nat_scope.

(** ** C19.  [junk_p] and [junk_i] are the uninitialised np.empty arrays. *)
Theorem C19_edges_to_csr :
  forall edges N, in_range edges N ->
  forall junk_p junk_i N0, node_count edges N0 N -> N < length junk_p -> 2 * length edges <= length junk_i ->
  exists indptr indices,
    edges_to_csr junk_p junk_i edges N0 = Ok (indptr, indices)
    /\ length indptr = S N /\ length indices = 2 * length edges
    /\ (forall m, m <= N -> nth_error indptr m = Some (deg_sum edges m))
    /\ (forall m, m < N -> slice indices (deg_sum edges m) (deg_sum edges (S m)) = nbrs edges m).
Proof. exact (fun edges N Hr jp ji N0 Hn => edges_to_csr_ok edges N Hr jp ji N0 (count_num _ _ _ Hn)). Qed.
Print Assumptions C19_edges_to_csr.

Theorem C19_total_degree : forall edges N, in_range edges N -> deg_sum edges N = 2 * length edges.
Proof. exact P_total. Qed.
Print Assumptions C19_total_degree.

(** The output is a valid adjacency structure, the symmetric closure of the edges. *)
Theorem C19_adjacency :
  forall edges N N0 junk_p junk_i,
    in_range edges N -> node_count edges N0 N -> N < length junk_p -> 2 * length edges <= length junk_i ->
    exists indptr indices,
      edges_to_csr junk_p junk_i edges N0 = Ok (indptr, indices)
      /\ csr N indptr indices
      /\ (forall m n, m < N -> (adj indptr indices m n <-> In (m, n) edges \/ In (n, m) edges)).
Proof. exact (fun edges N N0 jp ji Hr Hn => edges_to_csr_adj edges N N0 jp ji Hr (count_num _ _ _ Hn)). Qed.
Print Assumptions C19_adjacency.

(** without edges the default is not defined *)
Theorem C19_no_edges : forall junk_p junk_i, edges_to_csr junk_p junk_i [] None = Err ValueError.
Proof. exact no_edges. Qed.
Print Assumptions C19_no_edges.

Theorem C19_witness :
  in_range ex_edges 5
  /\ edges_to_csr (repeat 9 6) (repeat 9 10) ex_edges (Some 5) = Ok ([0; 2; 4; 7; 10; 10], [1; 2; 0; 2; 1; 0; 3; 2; 3; 3]).
Proof. exact (conj ex_range ex_csr). Qed.
Print Assumptions C19_witness.

(** ** C24, symmetric matrices *)
Theorem C24_symmetric :
  forall {F} {Nm : Num F} n, eqb (@zero F Nm) zero = true ->
  forall D P : nat -> nat -> F, symmetric n D -> symmetric n P ->
    (forall i j, i < n -> j < n -> (nonzero D i j <-> nonzero P i j)) ->
    exists e d p, build_grid_dict n D P = Ok (e, d, p)
      /\ each_pair_once (adjacent D) n e /\ values_of D e d /\ values_of P e p.
Proof. exact @build_grid_dict_sym. Qed.
Print Assumptions C24_symmetric.

(** matrices storing each pair once *)
Theorem C24_one_sided :
  forall {F} {Nm : Num F} n (D P : nat -> nat -> F),
    (forall x y : F, eqb x y = true -> eqb y zero = true -> eqb x zero = true) ->
    one_sided n D -> (exists i j, i < n /\ j < n /\ i <> j /\ nonzero D i j) ->
    (forall i j, i < n -> j < n -> (nonzero D i j <-> nonzero P i j)) ->
    exists e d p, build_grid_dict n D P = Ok (e, d, p)
      /\ each_pair_once (adjacent D) n e /\ values_of D e d /\ values_of P e p.
Proof. exact @build_grid_dict_one_sided. Qed.
Print Assumptions C24_one_sided.

(** a single matrix: any symmetric structure will do *)
Theorem C24_matrix :
  forall {F} {Nm : Num F} n, eqb (@zero F Nm) zero = true ->
  forall A : nat -> nat -> F, sym_str n A \/ one_sided n A ->
    let '(e, d, p) := build_grid_matrix n A in
    each_pair_once (adjacent A) n e /\ d = repeat one (length e) /\ p = repeat one (length e).
Proof. exact @build_grid_matrix_once. Qed.
Print Assumptions C24_matrix.

Theorem C24_f64_laws :
  eqb (@zero f64 _) zero = true /\ (forall x y : f64, eqb x y = true -> eqb y zero = true -> eqb x zero = true).
Proof. exact (conj f64_zero_refl f64_eq_zero). Qed.
Print Assumptions C24_f64_laws.

Theorem C24_witness :
  symmetric 3 ex_D /\ symmetric 3 ex_P /\ (forall i j, i < 3 -> j < 3 -> (nonzero ex_D i j <-> nonzero ex_P i j))
  /\ build_grid_dict 3 ex_D ex_P = Ok ([(0, 1); (1, 2); (2, 2)], map fl [3; 5; 7]%Z, map fl [1; 2; 4]%Z).
Proof. exact (conj ex_D_sym (conj ex_P_sym (conj ex_same ex_grid))). Qed.
Print Assumptions C24_witness.

(** Common symmetric structure is not enough for a dict: the pair is listed
    twice, or the matrices are rejected as having different structure. *)
Theorem C24_symmetric_structure_refuted :
  exists D P : nat -> nat -> f64, sym_str 2 D /\ (forall i j, i < 2 -> j < 2 -> (nonzero D i j <-> nonzero P i j))
    /\ exists e d p, build_grid_dict 2 D P = Ok (e, d, p) /\ ~ each_pair_once (adjacent D) 2 e.
Proof. exact ex_unsym_refutes. Qed.
Print Assumptions C24_symmetric_structure_refuted.
Theorem C24_same_structure_accepted_refuted :
  exists D P : nat -> nat -> f64, sym_str 2 D /\ (forall i j, i < 2 -> j < 2 -> (nonzero D i j <-> nonzero P i j))
    /\ build_grid_dict 2 D P = Err ValueError.
Proof. exact ex_unsym_rejected. Qed.
Print Assumptions C24_same_structure_accepted_refuted.

(** ** C25.  In any arithmetic, each node gets its (outgoing - incoming) sum over its area. *)
Theorem C25_divergence :
  forall {F} {Nm : Num F} (v : list F) edges (d area : list F) m,
    largest_node edges m -> length v = length edges -> length d = length edges -> length area = S m ->
    exists divg, divergence v edges d area = Ok divg /\ length divg = S m
      /\ forall j A, nth_error area j = Some A ->
           nth_error divg j = Some
             (div (sub (fold_left add (group (map (fun e => Z.of_nat (fst e)) edges) (flux v d) j) zero)
                       (fold_left add (group (map (fun e => Z.of_nat (snd e)) edges) (flux v d) j) zero)) A).
Proof. exact (fun F Nm v edges d area m Hm => divergence_ok v edges d area m (proj1 (largest_max _ _) Hm)). Qed.
Print Assumptions C25_divergence.

Theorem C25_scalars :
  forall {F} {Nm : Num F} (v : list F) edges c A m,
    largest_node edges m -> length v = length edges ->
    divergence v edges [c] [A] = divergence v edges (repeat c (length edges)) (repeat A (S m)).
Proof. exact (fun F Nm v edges c A m Hm => divergence_scalars v edges c A m (proj1 (largest_max _ _) Hm)). Qed.
Print Assumptions C25_scalars.

Theorem C25_outflow :
  forall (v : list R) edges (d area : list R) m,
    largest_node edges m -> length v = length edges -> length d = length edges -> length area = S m ->
    exists divg, divergence v edges d area = Ok divg /\ length divg = S m
      /\ forall j A, nth_error area j = Some A -> nth_error divg j = Some (outflow edges (flux v d) j / A)%R.
Proof. exact (fun v edges d area m Hm => divergence_real v edges d area m (proj1 (largest_max _ _) Hm)). Qed.
Print Assumptions C25_outflow.

Theorem C25_conserves :
  forall (v : list R) edges (d area : list R) m divg,
    largest_node edges m -> length v = length edges -> length d = length edges -> length area = S m ->
    (forall A, In A area -> A <> 0%R) ->
    divergence v edges d area = Ok divg ->
    Rsum (map (fun p => fst p * snd p)%R (combine area divg)) = 0%R.
Proof. exact (fun v edges d area m divg Hm => divergence_conserves v edges d area m divg (proj1 (largest_max _ _) Hm)). Qed.
Print Assumptions C25_conserves.

Theorem C25_linear :
  forall (u v : list R) edges (d area : list R) m du dv al be,
    largest_node edges m -> length u = length edges -> length v = length edges -> length d = length edges -> length area = S m ->
    divergence u edges d area = Ok du -> divergence v edges d area = Ok dv ->
    divergence (map (fun p => al * fst p + be * snd p)%R (combine u v)) edges d area
    = Ok (map (fun p => al * fst p + be * snd p)%R (combine du dv)).
Proof. exact (fun u v edges d area m du dv al be Hm => divergence_linear u v edges d area m du dv al be (proj1 (largest_max _ _) Hm)). Qed.
Print Assumptions C25_linear.

Theorem C25_witness :
  divergence [fl 1; fl 2; fl 3; fl 4] [(0, 1); (1, 2); (2, 0); (0, 3)] [fl 1; fl 1; fl 1; fl 2] [fl 1; fl 1; fl 2; fl 4]
  = Ok [fl 6; fl 1; lit 5 (-1); fl (-2)].
Proof. exact ex_div. Qed.
Print Assumptions C25_witness.

(** One area per node is not accepted when the last node has no edge. *)
Theorem C25_isolated_last_node_refuted :
  exists (v : list f64) edges (d area : list f64), in_range edges (length area) /\ length v = length edges
    /\ length d = length edges /\ divergence v edges d area = Err ValueError.
Proof. exact ex_div_refutes. Qed.
Print Assumptions C25_isolated_last_node_refuted.

(** ** C48.  The matrix of edges_to_graph *)
Theorem C48_edges_to_graph :
  forall edges N N0 (w : list R),
    node_count edges N0 N -> in_range edges N -> length w = length edges ->
    exists G, edges_to_graph edges N0 w = Ok G /\ forall m n, G m n = weight_between edges w m n.
Proof. exact (fun edges N N0 w Hn => edges_to_graph_ok edges N N0 w (count_num _ _ _ Hn)). Qed.
Print Assumptions C48_edges_to_graph.

Theorem C48_symmetric : forall edges w m n, weight_between edges w m n = weight_between edges w n m.
Proof. exact weight_sym. Qed.
Print Assumptions C48_symmetric.

Theorem C48_simple_graph :
  forall edges w i m n x,
    NoDup edges -> (forall a b, In (a, b) edges -> ~ In (b, a) edges) -> length w = length edges ->
    nth_error edges i = Some (m, n) -> nth_error w i = Some x -> weight_between edges w m n = x.
Proof. exact weight_single. Qed.
Print Assumptions C48_simple_graph.

Theorem C48_no_edge :
  forall edges w m n, ~ In (m, n) edges -> ~ In (n, m) edges -> weight_between edges w m n = 0%R.
Proof. exact weight_none. Qed.
Print Assumptions C48_no_edge.

(** "G[m,n] = weights[i]" is false for a self loop and for a repeated edge. *)
Theorem C48_loop_refuted :
  exists edges (w : list f64) G, edges_to_graph edges None w = Ok G
    /\ nth_error edges 0 = Some (0, 0) /\ nth_error w 0 = Some (fl 1) /\ G 0 0 = fl 2
    /\ nth_error edges 1 = Some (0, 1) /\ nth_error w 1 = Some (fl 1) /\ G 0 1 = fl 2.
Proof. exact ex_loop_refutes. Qed.
Print Assumptions C48_loop_refuted.

(** ** C49.  graph_binary_fcn *)
Theorem C49_graph_binary_fcn :
  forall {F} edges (v : list F) f, in_range edges (length v) ->
    exists ev, graph_binary_fcn edges v f = Ok ev /\ length ev = length edges
      /\ forall k a b x y, nth_error edges k = Some (a, b) -> nth_error v a = Some x -> nth_error v b = Some y ->
           nth_error ev k = Some (f x y).
Proof. exact @graph_binary_fcn_ok. Qed.
Print Assumptions C49_graph_binary_fcn.

Theorem C49_labels :
  forall {F} edges (v : list F) f, (forall i j, In (i, j) edges -> (exists a, label_of (length v) i a) /\ exists b, label_of (length v) j b) ->
    exists ev, graph_binary_fcn_Z edges v f = Ok ev /\ length ev = length edges
      /\ forall k i j a b x y, nth_error edges k = Some (i, j) -> label_of (length v) i a -> label_of (length v) j b -> nth_error v a = Some x -> nth_error v b = Some y ->
           nth_error ev k = Some (f x y).
Proof. exact @graph_binary_fcn_Z_ok. Qed.
Print Assumptions C49_labels.
Example C49_labels_witness : label_of 2 (-1) 1 /\ label_of 2 0 0 /\ graph_binary_fcn_Z [(-1, 0)%Z] [fl 1; fl 2] sub = Ok [fl 1].
Proof. exact ex_labels. Qed.

(** "If either i or j is < 0, ev[e] is nan" is false: the label wraps around. *)
Theorem C49_negative_label_refuted :
  exists edges (v : list f64) f x, In (-1, 0)%Z edges /\ graph_binary_fcn_Z edges v f = Ok [x] /\ isnan x = false.
Proof. exact ex_negative_refutes. Qed.
Print Assumptions C49_negative_label_refuted.
