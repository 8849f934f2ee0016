(** * Properties of the rectilinear, tripolar and xgcm grids *)
From Coq Require Import Ascii String List ZArith Bool Permutation.
From Verif Require Import Num Res Arr Nd M_grid M_xgcm S_graph S_grid S_xgcm S_args P_grid P_edgedata P_tripolar P_xgcm P_args Ex_grid.
Import ListNotations.
Local Open Scope nat_scope.

Theorem C20_adjacency : forall junk_a junk_b ni nj p0 p1, sizes_ok ni nj p0 p1 ->
  with_prev ni p0 * nj + ni * with_prev nj p1 <= length junk_a ->
  with_prev ni p0 * nj + ni * with_prev nj p1 <= length junk_b ->
  exists a b, build_edges junk_a junk_b ni nj p0 p1 = Ok (a, b)
    /\ length a = with_prev ni p0 * nj + ni * with_prev nj p1 /\ length b = length a
    /\ in_range (combine a b) (ni * nj)
    /\ forall c c', (exists e, In e (combine a b) /\ joins e c c') <-> neighbours ni nj p0 p1 c c'.
Proof. exact build_edges_adjacency. Qed.
Print Assumptions C20_adjacency.

Theorem C20_each_pair_once : forall junk_a junk_b ni nj p0 p1, sizes_ok ni nj p0 p1 ->
  (p0 = true -> 2 < ni) -> (p1 = true -> 2 < nj) ->
  with_prev ni p0 * nj + ni * with_prev nj p1 <= length junk_a ->
  with_prev ni p0 * nj + ni * with_prev nj p1 <= length junk_b ->
  exists a b, build_edges junk_a junk_b ni nj p0 p1 = Ok (a, b)
    /\ each_pair_once (neighbours ni nj p0 p1) (ni * nj) (combine a b).
Proof. exact build_edges_once. Qed.
Print Assumptions C20_each_pair_once.

Theorem C20_raises : forall junk_a junk_b ni nj p0 p1, ~ sizes_ok ni nj p0 p1 ->
  build_edges junk_a junk_b ni nj p0 p1 = Err ValueError.
Proof. exact build_edges_raises. Qed.
Print Assumptions C20_raises.

Example C20_witness : build_edges (repeat 9 9) (repeat 8 9) 2 3 false true
  = Ok ([3; 4; 5; 0; 1; 2; 3; 4; 5], [0; 1; 2; 2; 0; 1; 5; 3; 4]).
Proof. exact rect_23. Qed.

(** two cells in a periodic direction are listed twice *)
Example C20_small_periodic : build_edges (repeat 9 5) (repeat 8 5) 1 2 false true = Ok ([0; 1], [1; 0])
  /\ build_edges (repeat 9 5) (repeat 8 5) 1 2 true false = Ok ([0; 1; 1], [0; 1; 0]).
Proof. exact rect_small. Qed.

Theorem C21_alignment : forall A junk_a junk_b ni nj p0 p1 (dxC dyC dyG dxG : nd A), sizes_ok ni nj p0 p1 ->
  broadcastable dxC ni nj -> broadcastable dyC ni nj -> broadcastable dyG ni nj -> broadcastable dxG ni nj ->
  with_prev ni p0 * nj + ni * with_prev nj p1 <= length junk_a ->
  with_prev ni p0 * nj + ni * with_prev nj p1 <= length junk_b ->
  exists a b dist distperp, build_grid junk_a junk_b ni nj p0 p1 dxC dyC dyG dxG = Ok ((a, b), dist, distperp)
    /\ length dist = length a /\ length distperp = length a
    /\ forall k x y, nth_error a k = Some x -> nth_error b k = Some y ->
         (k < with_prev ni p0 * nj /\ exists i j i', x = node nj i j /\ y = node nj i' j /\ j < nj /\ precedes ni p0 i' i
            /\ bat dxC i j <> None /\ nth_error dist k = bat dxC i j /\ bat dyG i j <> None /\ nth_error distperp k = bat dyG i j)
         \/ (with_prev ni p0 * nj <= k /\ exists i j j', x = node nj i j /\ y = node nj i j' /\ i < ni /\ precedes nj p1 j' j
            /\ bat dyC i j <> None /\ nth_error dist k = bat dyC i j /\ bat dxG i j <> None /\ nth_error distperp k = bat dxG i j).
Proof. exact (fun A => grid_alignment). Qed.
Print Assumptions C21_alignment.

Theorem C21_maps : forall A (nan : A) junk_a junk_b ni nj p0 p1 (edgedata : list A),
  (p0 = true \/ 0 < ni) -> (p1 = true \/ 0 < nj) ->
  with_prev ni p0 * nj + ni * with_prev nj p1 <= length junk_a ->
  with_prev ni p0 * nj + ni * with_prev nj p1 <= length junk_b ->
  length edgedata = with_prev ni p0 * nj + ni * with_prev nj p1 ->
  exists a b Fi Fj, build_edges junk_a junk_b ni nj p0 p1 = Ok (a, b)
    /\ edgedata_to_maps nan edgedata ni nj p0 p1 = Ok (Fi, Fj)
    /\ has_shape Fi ni nj /\ has_shape Fj ni nj
    /\ (forall k i j, nth_error a k = Some (node nj i j) -> j < nj -> k < with_prev ni p0 * nj ->
          at2 Fi i j = nth_error edgedata k)
    /\ (forall k i j, nth_error a k = Some (node nj i j) -> j < nj -> with_prev ni p0 * nj <= k ->
          at2 Fj i j = nth_error edgedata k)
    /\ (forall i j, i < ni -> j < nj -> (forall i', ~ precedes ni p0 i' i) -> at2 Fi i j = Some nan)
    /\ (forall i j, i < ni -> j < nj -> (forall j', ~ precedes nj p1 j' j) -> at2 Fj i j = Some nan).
Proof. exact (fun A => maps_of_edges). Qed.
Print Assumptions C21_maps.

Theorem C21_round_trip : forall A (nan : A) ni nj p0 p1 (x y : nd A),
  (p0 = true \/ 0 < ni) -> (p1 = true \/ 0 < nj) -> broadcastable x ni nj -> broadcastable y ni nj ->
  exists d Fi Fj, build_edgedata ni nj p0 p1 x y = Ok d /\ edgedata_to_maps nan d ni nj p0 p1 = Ok (Fi, Fj)
    /\ has_shape Fi ni nj /\ has_shape Fj ni nj
    /\ (forall i j, i < ni -> j < nj -> at2 Fi i j = if negb p0 && Nat.eqb i 0 then Some nan else bat x i j)
    /\ (forall i j, i < ni -> j < nj -> at2 Fj i j = if negb p1 && Nat.eqb j 0 then Some nan else bat y i j).
Proof. exact (fun A => maps_round_trip). Qed.
Print Assumptions C21_round_trip.

(** grids with no cells: empty maps, but for sizes (0, 0) with a wall *)
Theorem C21_empty : forall A (nan : A) ni nj p0 p1, ni = 0 \/ nj = 0 ->
  edgedata_to_maps nan [] ni nj p0 p1
  = if Nat.eqb ni 0 && Nat.eqb nj 0 && negb (p0 && p1) then Err ValueError else Ok (repeat [] ni, repeat [] ni).
Proof. exact @maps_empty. Qed.
Print Assumptions C21_empty.

Theorem C21_not_broadcastable : forall A (x y : nd A) ni nj p0 p1, wf x -> wf y ->
  ~ (broadcastable x ni nj /\ broadcastable y ni nj) -> build_edgedata ni nj p0 p1 x y = Err ValueError.
Proof. exact (fun A => build_edgedata_err). Qed.
Print Assumptions C21_not_broadcastable.

Example C21_witness : edgedata_to_maps 0 [1; 2; 3; 4; 5; 6; 7; 8; 9] 2 3 false true
  = Ok ([[0; 0; 0]; [1; 2; 3]], [[4; 5; 6]; [7; 8; 9]]).
Proof. exact rect_maps. Qed.

Theorem C22_adjacency : forall junk_a junk_b nj ni, 1 <= nj ->
  2 * (nj * ni) <= length junk_a -> 2 * (nj * ni) <= length junk_b ->
  exists a b, tripolar_edges junk_a junk_b nj ni = Ok (a, b)
    /\ length a = 2 * (nj * ni) /\ length b = 2 * (nj * ni)
    /\ (forall k x y, nth_error a k = Some x -> nth_error b k = Some y ->
          exists j i j' i', x = node ni j i /\ y = node ni j' i' /\ j < nj /\ j' < nj /\ i < ni /\ i' < ni
            /\ if Nat.ltb k (nj * ni) then north nj ni j i j' i' else east ni j i j' i')
    /\ (forall j i j' i', j < nj -> j' < nj -> i < ni -> i' < ni -> north nj ni j i j' i' ->
          exists k, k < nj * ni /\ nth_error a k = Some (node ni j i) /\ nth_error b k = Some (node ni j' i'))
    /\ (forall j i j' i', j < nj -> j' < nj -> i < ni -> i' < ni -> east ni j i j' i' ->
          exists k, nj * ni <= k /\ nth_error a k = Some (node ni j i) /\ nth_error b k = Some (node ni j' i')).
Proof. exact tripolar_adjacency. Qed.
Print Assumptions C22_adjacency.

(** pairs joined across the fold are listed twice, on every grid with at least two columns *)
Theorem C22_each_pair_once_refuted : forall junk_a junk_b nj ni, 1 <= nj -> 2 <= ni ->
  2 * (nj * ni) <= length junk_a -> 2 * (nj * ni) <= length junk_b ->
  exists a b, tripolar_edges junk_a junk_b nj ni = Ok (a, b)
    /\ ~ each_pair_once (tripolar_neighbours nj ni) (nj * ni) (combine a b).
Proof. exact tripolar_not_once. Qed.
Print Assumptions C22_each_pair_once_refuted.

Theorem C22_fold_twice : forall junk_a junk_b nj ni, 1 <= nj ->
  2 * (nj * ni) <= length junk_a -> 2 * (nj * ni) <= length junk_b ->
  exists a b, tripolar_edges junk_a junk_b nj ni = Ok (a, b)
    /\ forall i i', i + S i' = ni -> i <> i' ->
         exists k k', k <> k'
           /\ nth_error (combine a b) k = Some (node ni (nj - 1) i, node ni (nj - 1) i')
           /\ nth_error (combine a b) k' = Some (node ni (nj - 1) i', node ni (nj - 1) i).
Proof. exact tripolar_fold_twice. Qed.
Print Assumptions C22_fold_twice.

Theorem C22_alignment : forall A junk_a junk_b nj ni (e1u e2v e2u e1v : nd A), 1 <= nj ->
  broadcastable e1u nj ni -> broadcastable e2v nj ni -> broadcastable e2u nj ni -> broadcastable e1v nj ni ->
  2 * (nj * ni) <= length junk_a -> 2 * (nj * ni) <= length junk_b ->
  exists a b dist distperp, tripolar_grid junk_a junk_b nj ni e1u e2v e2u e1v = Ok ((a, b), dist, distperp)
    /\ length dist = length a /\ length distperp = length a /\ length b = length a
    /\ forall k x y, nth_error a k = Some x -> nth_error b k = Some y ->
         exists j i j' i', x = node ni j i /\ y = node ni j' i' /\ j < nj /\ j' < nj /\ i < ni /\ i' < ni
           /\ if Nat.ltb k (nj * ni)
              then north nj ni j i j' i' /\ nth_error dist k = bat e2v j i /\ nth_error distperp k = bat e1v j i
              else east ni j i j' i' /\ nth_error dist k = bat e1u j i /\ nth_error distperp k = bat e2u j i.
Proof. exact (fun A => tripolar_alignment). Qed.
Print Assumptions C22_alignment.

(** metrics with the documented padding are rejected *)
Theorem C22_padding_refuted : forall A (v u : nd A) nj ni, wf v -> wf u ->
  shape v = [nj + 1; ni + 2] \/ shape u = [nj + 1; ni + 2] -> tripolar_edgedata nj ni v u = Err ValueError.
Proof. exact (fun A => tripolar_padded). Qed.
Print Assumptions C22_padding_refuted.

Theorem C22_round_trip : forall A (v u : nd A) nj ni, broadcastable v nj ni -> broadcastable u nj ni ->
  exists d v' u', tripolar_edgedata nj ni v u = Ok d /\ tripolar_maps d nj ni = Ok (v', u')
    /\ shape v' = [nj; ni] /\ shape u' = [nj; ni] /\ wf v' /\ wf u'
    /\ forall j i, j < nj -> i < ni -> at_ v' [j; i] = bat v j i /\ at_ u' [j; i] = bat u j i.
Proof. exact (fun A => tripolar_round_trip). Qed.
Print Assumptions C22_round_trip.

Example C22_witness : tripolar_edges (repeat 9 12) (repeat 8 12) 2 3
  = Ok ([0; 1; 2; 3; 4; 5; 0; 1; 2; 3; 4; 5], [3; 4; 5; 5; 4; 3; 1; 2; 0; 4; 5; 3]).
Proof. exact tri_23. Qed.

(** edges in the i direction (k < Ni) are given dyC and dxG, those in the j direction dxC and dyG *)
Theorem C23_edges : forall tile nf n ufunc nb, shifts tile nf n ufunc nb ->
  forall F junk junkd junkp dims xsh ysh xr yr d1 d2 d3 d4 (dxC dyC dyG dxG : nd F),
    good_dims tile dims -> word_for xr xsh -> word_for yr ysh ->
    keeps_order ufunc AxX xr -> (yr = true -> keeps_order ufunc AxY true) ->
    names_match d1 d2 d3 d4 ->
    labelled tile nf n dims dxC -> labelled tile nf n dims dyC -> labelled tile nf n dims dyG -> labelled tile nf n dims dxG ->
    2 * (nf * n * n) <= length junk -> 2 * (nf * n * n) <= length junkd -> 2 * (nf * n * n) <= length junkp ->
    exists a b dist distperp Ni,
      xgcm_grid ufunc tile nf junk junkd junkp n dims xsh ysh (Array d1 dxC) (Array d2 dyC) (Array d3 dyG) (Array d4 dxG)
        = Ok ((a, b), dist, distperp)
      /\ length b = length a /\ length dist = length a /\ length distperp = length a
      /\ (forall k x y, nth_error a k = Some x -> nth_error b k = Some y ->
            exists s s', in_grid tile nf n dims s /\ in_grid tile nf n dims s'
              /\ x = number tile nf n dims s /\ y = Z.of_nat (number tile nf n dims s')
              /\ if Nat.ltb k Ni
                 then nb AxX xr s = Some s' /\ nth_error dist k = at_ dyC (map s dims) /\ nth_error distperp k = at_ dxG (map s dims)
                 else nb AxY yr s = Some s' /\ nth_error dist k = at_ dxC (map s dims) /\ nth_error distperp k = at_ dyG (map s dims))
      /\ (forall s s', in_grid tile nf n dims s -> nb AxX xr s = Some s' ->
            exists k, k < Ni /\ nth_error a k = Some (number tile nf n dims s)
              /\ nth_error b k = Some (Z.of_nat (number tile nf n dims s')))
      /\ (forall s s', in_grid tile nf n dims s -> nb AxY yr s = Some s' ->
            exists k, Ni <= k /\ nth_error a k = Some (number tile nf n dims s)
              /\ nth_error b k = Some (Z.of_nat (number tile nf n dims s'))).
Proof.
  exact (fun tile nf n ufunc nb H F junk junkd junkp dims xsh ysh xr yr d1 d2 d3 d4 dxC dyC dyG dxG Hd Hx Hy =>
    xgcm_grid_ok tile nf n ufunc nb H junk junkd junkp dims xsh ysh xr yr d1 d2 d3 d4 dxC dyC dyG dxG Hd (proj1 (word_side _ _) Hx) (proj1 (word_side _ _) Hy)).
Qed.
Print Assumptions C23_edges.

(** an edge in the i direction whose dist is not dxC and whose distperp is not dyG *)
Theorem C23_geometry_refuted : exists (ufunc : axis -> bool -> larr Z -> larr Z) nb tile nf n dims xsh ysh
    (dxC dyC dyG dxG : nd nat) junk junkd junkp a b dist distperp,
  shifts tile nf n ufunc nb /\ good_dims tile dims /\ word_for false xsh /\ word_for false ysh
  /\ keeps_order ufunc AxX false
  /\ labelled tile nf n dims dxC /\ labelled tile nf n dims dyC /\ labelled tile nf n dims dyG /\ labelled tile nf n dims dxG
  /\ xgcm_grid ufunc tile nf junk junkd junkp n dims xsh ysh (Array None dxC) (Array None dyC) (Array None dyG) (Array None dxG)
     = Ok ((a, b), dist, distperp)
  /\ exists k s s', nth_error a k = Some (number tile nf n dims s)
       /\ nth_error b k = Some (Z.of_nat (number tile nf n dims s'))
       /\ in_grid tile nf n dims s /\ nb AxX false s = Some s' /\ nb AxY false s <> Some s'
       /\ nth_error dist k <> at_ dxC (map s dims) /\ nth_error distperp k <> at_ dyG (map s dims).
Proof. exact geometry_refuted. Qed.
Print Assumptions C23_geometry_refuted.

(** ysh = "right": if xgcm reorders the dimensions, as the source says it does
    for "left", cells that are not adjacent are joined *)
Theorem C23_right_refuted : exists (ufunc : axis -> bool -> larr Z -> larr Z) nb tile nf n dims xsh ysh
    (dxC dyC dyG dxG : nd nat) junk junkd junkp a b dist distperp,
  shifts tile nf n ufunc nb /\ good_dims tile dims /\ word_for false xsh /\ word_for true ysh
  /\ keeps_order ufunc AxX false
  /\ labelled tile nf n dims dxC /\ labelled tile nf n dims dyC /\ labelled tile nf n dims dyG /\ labelled tile nf n dims dxG
  /\ xgcm_grid ufunc tile nf junk junkd junkp n dims xsh ysh (Array None dxC) (Array None dyC) (Array None dyG) (Array None dxG)
     = Ok ((a, b), dist, distperp)
  /\ exists k x y, nth_error a k = Some x /\ nth_error b k = Some y
       /\ forall ax right s s', in_grid tile nf n dims s -> nb ax right s = Some s' ->
            number tile nf n dims s = x -> Z.of_nat (number tile nf n dims s') <> y.
Proof. exact right_refuted. Qed.
Print Assumptions C23_right_refuted.

(** the default metrics (floats) raise *)
Theorem C23_default_metrics_refuted : forall tile nf n ufunc nb, shifts tile nf n ufunc nb ->
  forall F junk junkd junkp dims xsh ysh xr yr x (dxC dyG dxG : metric F),
    good_dims tile dims -> word_for xr xsh -> word_for yr ysh ->
    keeps_order ufunc AxX xr -> (yr = true -> keeps_order ufunc AxY true) ->
    2 * (nf * n * n) <= length junk ->
    xgcm_grid ufunc tile nf junk junkd junkp n dims xsh ysh dxC (Scalar x) dyG dxG = Err AttributeError.
Proof.
  exact (fun tile nf n ufunc nb H F junk junkd junkp dims xsh ysh xr yr x dxC dyG dxG Hd Hx Hy =>
    xgcm_scalar_raises tile nf n ufunc nb H junk junkd junkp dims xsh ysh xr yr x dxC dyG dxG Hd (proj1 (word_side _ _) Hx) (proj1 (word_side _ _) Hy)).
Qed.
Print Assumptions C23_default_metrics_refuted.

Theorem C23_maps : forall tile nf n ufunc nb, shifts tile nf n ufunc nb ->
  forall F {Nm : Num F} junk junkd junkp dims xsh ysh xr yr d1 d2 d3 d4 (dxC dyC dyG dxG : nd F) (ed : list F) a b dist distperp,
    good_dims tile dims -> word_for xr xsh -> word_for yr ysh ->
    keeps_order ufunc AxX xr -> (yr = true -> keeps_order ufunc AxY true) ->
    names_match d1 d2 d3 d4 ->
    labelled tile nf n dims dxC -> labelled tile nf n dims dyC -> labelled tile nf n dims dyG -> labelled tile nf n dims dxG ->
    2 * (nf * n * n) <= length junk -> 2 * (nf * n * n) <= length junkd -> 2 * (nf * n * n) <= length junkp ->
    xgcm_grid ufunc tile nf junk junkd junkp n dims xsh ysh (Array d1 dxC) (Array d2 dyC) (Array d3 dyG) (Array d4 dxG)
        = Ok ((a, b), dist, distperp) ->
    length ed = length a ->
    exists Ni Fi Fj, xgcm_maps ufunc tile nf ed n dims xsh ysh = Ok (Fi, Fj)
      /\ labelled tile nf n dims Fi /\ labelled tile nf n dims Fj
      /\ forall s, in_grid tile nf n dims s ->
           match nb AxX xr s with
           | Some s' => exists k, k < Ni /\ nth_error a k = Some (number tile nf n dims s)
                          /\ nth_error b k = Some (Z.of_nat (number tile nf n dims s'))
                          /\ at_ Fi (map s dims) = nth_error ed k
           | None => at_ Fi (map s dims) = Some nan
           end
           /\ match nb AxY yr s with
           | Some s' => exists k, Ni <= k /\ nth_error a k = Some (number tile nf n dims s)
                          /\ nth_error b k = Some (Z.of_nat (number tile nf n dims s'))
                          /\ at_ Fj (map s dims) = nth_error ed k
           | None => at_ Fj (map s dims) = Some nan
           end.
Proof.
  exact (fun tile nf n ufunc nb H F Nm junk junkd junkp dims xsh ysh xr yr d1 d2 d3 d4 dxC dyC dyG dxG ed a b dist distperp Hd Hx Hy =>
    xgcm_maps_ok tile nf n ufunc nb H junk junkd junkp dims xsh ysh xr yr d1 d2 d3 d4 dxC dyC dyG dxG ed a b dist distperp Hd
      (proj1 (word_side _ _) Hx) (proj1 (word_side _ _) Hy)).
Qed.
Print Assumptions C23_maps.

(** tiles without connections meet the hypotheses on xgcm *)
Example C23_witness : forall last tile nf n, shifts tile nf n (plain_ufunc last n) (plain_nb n).
Proof. exact plain_shifts. Qed.
Example C23_witness_grid :
  xgcm_grid (plain_ufunc true 2) "tile" 1 (repeat 9%Z 8) (repeat 0 8) (repeat 0 8) 2 tji "left" "left"
    (Array None (mk_nd [1; 2; 2] [1; 2; 3; 4])) (Array None (mk_nd [1; 2; 2] [5; 6; 7; 8]))
    (Array None (mk_nd [1; 2; 2] [11; 12; 13; 14])) (Array None (mk_nd [1; 2; 2] [15; 16; 17; 18]))
  = Ok (([1; 3; 2; 3], [0; 2; 0; 1]%Z), [6; 8; 3; 4], [16; 18; 13; 14]).
Proof. exact xgcm_22. Qed.
