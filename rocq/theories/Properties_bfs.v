(** * Properties C17, C18, C31, C32: breadth-first searches (bfs.py) *)
From Coq Require Import Reals List ZArith Bool Lia.
From Verif Require Import Num SF Res Arr M_ppinterp M_traj M_bfs S_graph S_wet P_bfs P_wet P_perim Ex_bfs
  XR S_interp S_traj P_wet_exact Ex_ppinterp Ex_traj Ex_wet.
Import ListNotations.

(** ** C17, C18.  [junk] is the uninitialised memory behind np.empty.
    [Ok] excludes index errors; the result is the same for every fuel above N,
    so the while loop ends within N + 1 tests of its condition. *)
Theorem C17_bfs_component :
  forall N indptr indices root good junk,
    csr N indptr indices -> length good = N -> root < N -> N <= length junk ->
    exists qu good',
      (forall fuel, N < fuel -> bfs_conncomp1 fuel junk indptr indices root good = Ok (qu, good'))
      /\ NoDup qu
      /\ (forall n, In n qu <-> reach (adj indptr indices) (mask good) root n)
      /\ (mask good root -> nth_error qu 0 = Some root)
      /\ (~ mask good root -> qu = [])
      /\ length good' = N
      /\ (forall n, mask good' n <-> mask good n /\ ~ reach (adj indptr indices) (mask good) root n).
Proof. exact bfs_component. Qed.
Print Assumptions C17_bfs_component.

Theorem C18_bfs_order :
  forall N indptr indices root good junk qu good' fuel,
    csr N indptr indices -> length good = N -> root < N -> N <= length junk -> N < fuel ->
    bfs_conncomp1 fuel junk indptr indices root good = Ok (qu, good') ->
    let D := dist (adj indptr indices) (mask good) root in
    (forall i j a b da db, i <= j -> nth_error qu i = Some a -> nth_error qu j = Some b ->
        D a da -> D b db -> da <= db)
    /\ (forall n, In n qu -> exists d, D n d)
    /\ (forall i n, nth_error qu (S i) = Some n ->
          exists j m, j <= i /\ nth_error qu j = Some m /\ adj indptr indices m n).
Proof. exact bfs_order. Qed.
Print Assumptions C18_bfs_order.

Example C17_witness :
  csr 4 path_ptr path_ind
  /\ bfs_conncomp1 5 [7; 7; 7; 7] path_ptr path_ind 0 [true; true; false; true]
     = Ok ([0; 1], [false; false; false; true]).
Proof. split; [exact path_csr|exact bfs_path]. Qed.

(** ** C31.  Over any number type (in particular bit-exact binary64), any
    equation of state, interpolant and fuel: the search finishes with the
    stated result, or it raises an exception that is the outcome of one NTP
    calculation started from a bottle with finite pressure, which moreover has
    every property okb that the given surface has and that NTP links preserve. *)
Theorem C31_wetting_search :
  forall (F : Type) (Nm : Num F) eos ppc_fn fuel casts tol_p p_ml N indptr indices root
         (stp0 : list (F * F * F)),
    csr N indptr indices -> length casts = N -> length p_ml = N -> length stp0 = N ->
    (forall S T P, In (S, T, P) casts -> length S <= length P) ->
    isfinite (nan : F) = false ->
    forall okb, closed eos ppc_fn fuel casts tol_p okb stp0 ->
    forall junk, root < N -> N <= length junk -> forall lf, N < lf ->
    let E := adj indptr indices in
    let wet0 := wet_at stp0 in
    let ntp_to := ntp_to eos ppc_fn fuel casts tol_p in
    let accepted := accepted p_ml in
    okor (fun '(qu, new, stp) =>
        NoDup qu /\ length stp = N
        /\ (wet0 root -> nth_error qu 0 = Some root)
        /\ (~ wet0 root -> qu = [])
        (* wet nodes next to the queue are in the queue *)
        /\ (forall m n, In m qu -> E m n -> wet0 n -> In n qu)
        (* only casts that were dry change *)
        /\ (forall n, wet0 n \/ ~ In n qu -> nth_error stp n = nth_error stp0 n)
        (* the others are reached from an earlier node; dry ones by an NTP link from the surface there *)
        /\ (forall i n, nth_error qu (S i) = Some n ->
              exists j m, j <= i /\ nth_error qu j = Some m /\ E m n
                /\ (wet0 n \/ exists b r, nth_error stp m = Some b /\ nth_error stp n = Some r
                                     /\ ntp_to b n (Ok r) /\ accepted n r))
        (* nothing was missed *)
        /\ (forall m n, In m qu -> E m n -> ~ In n qu ->
              exists b r, nth_error stp m = Some b /\ ntp_to b n (Ok r) /\ ~ accepted n r)
        (* the count *)
        /\ (exists D, NoDup D /\ (forall n, In n D <-> In n qu /\ ~ wet0 n) /\ new = length D))
      (blame eos ppc_fn fuel casts tol_p okb)
      (bfs_conncomp1_wet eos ppc_fn fuel casts tol_p p_ml lf junk indptr indices root stp0).
Proof. exact @bfs_wet_correct. Qed.
Print Assumptions C31_wetting_search.

(** The documentation claims "at most one NTP bottle to cast calculation per
    dry cast".  Here node 2 is dry and adjacent to root 0: the link from 0 is
    rejected, yet the search makes it wet by another link, from node 1. *)
Theorem C31_one_ntp_per_cast_refuted :
  exists n b0 b1 r0 r1 qu new stp,
    nth_error w_stp n = Some dry
    /\ nth_error w_stp 0 = Some b0 /\ ntp_to eos_s ppc 100 w_casts (f 1 (-3)) b0 n (Ok r0) /\ ~ accepted w_ml n r0
    /\ nth_error w_stp 1 = Some b1 /\ ntp_to eos_s ppc 100 w_casts (f 1 (-3)) b1 n (Ok r1)
    /\ bfs_conncomp1_wet eos_s ppc 100 w_casts (f 1 (-3)) w_ml 10 [0; 0; 0] tri_ptr tri_ind 0 w_stp = Ok (qu, new, stp)
    /\ In n qu /\ nth_error stp n = Some r1.
Proof. exact wet_retry. Qed.
Print Assumptions C31_one_ntp_per_cast_refuted.

(** ** C32.  As C31; D is the set of newly wet casts. *)
Theorem C32_perimeter_wetting :
  forall (F : Type) (Nm : Num F) eos ppc_fn fuel casts tol_p p_ml N indptr indices root
         (stp0 : list (F * F * F)),
    csr N indptr indices -> length casts = N -> length p_ml = N -> length stp0 = N ->
    (forall S T P, In (S, T, P) casts -> length S <= length P) ->
    isfinite (nan : F) = false ->
    forall okb, closed_p eos ppc_fn fuel casts tol_p (listed indptr indices) okb stp0 ->
    forall junk n_rep, root < N -> N <= length junk -> forall lf, N < lf ->
    let E := adj indptr indices in
    let C := reach E (wet_at stp0) root in
    let wetted := wetted eos ppc_fn fuel casts tol_p p_ml (listed indptr indices) in
    let unlinkable := unlinkable eos ppc_fn fuel casts tol_p p_ml E in
    okor (fun r : nat * list (F * F * F) => let (new, stp) := r in exists D : list nat,
        new = length D /\ NoDup D /\ length stp = N
        (* the component of root is kept *)
        /\ (forall n, C n -> nth_error stp n = nth_error stp0 n)
        (* everything else that is not newly wet has p = NaN *)
        /\ (forall n s t p, ~ C n -> ~ In n D -> nth_error stp0 n = Some (s, t, p) -> nth_error stp n = Some (s, t, nan))
        (* newly wet casts were dry, are joined to root, and are means of NTP links *)
        /\ (forall n, In n D -> n < N /\ ~ wet_at stp0 n /\ reach E (fun y => C y \/ In y D) root n /\ wetted C stp n)
        (* one pass deals with all neighbours of C, many passes with all neighbours of C and D *)
        /\ (1 <= n_rep -> forall x n, C x -> E x n -> ~ wet_at stp0 n -> ~ In n D -> unlinkable C stp n)
        /\ (N <= n_rep -> forall x n, C x \/ In x D -> E x n -> ~ wet_at stp0 n -> ~ In n D -> unlinkable C stp n)
        (* every wet bottle of the result is in every set closed under linking *)
        /\ (forall n s t p, nth_error stp n = Some (s, t, p) -> isfinite p = true -> okb (s, t, p)))
      (blame_p eos ppc_fn fuel casts tol_p (listed indptr indices) okb)
      (bfs_conncomp1_wet_perim eos ppc_fn fuel casts tol_p p_ml lf junk indptr indices root n_rep stp0).
Proof. exact @bfs_wet_perim_correct. Qed.
Print Assumptions C32_perimeter_wetting.

(** A cast is made wet inside its own mixed layer. *)
Theorem C32_below_mixed_layer_refuted :
  exists n s t p ml new stp,
    bfs_conncomp1_wet_perim eos_s ppc 100 w_casts (f 1 (-3)) m_ml 10 [0; 0; 0] tri_ptr tri_ind 0 1 m_stp = Ok (new, stp)
    /\ nth_error m_stp n = Some dry /\ nth_error stp n = Some (s, t, p) /\ isfinite p = true
    /\ nth_error m_ml n = Some ml /\ ltb p ml = true.
Proof. exact perim_wrong_ml. Qed.
Print Assumptions C32_below_mixed_layer_refuted.

(** Listing the same neighbours in another order changes the surface by more
    than 1 (10% of the depth of the casts). *)
Theorem C32_order_insensitive_refuted :
  exists new stp new' stp' n s t p s' t' p',
    (forall m n, adj tri_ptr tri_ind m n <-> adj tri_ptr tri_ind' m n)
    /\ bfs_conncomp1_wet_perim eos_tb ppc 100 o_casts (f 1 (-3)) no_ml 10 [0; 0; 0] tri_ptr tri_ind 0 10 o_stp = Ok (new, stp)
    /\ bfs_conncomp1_wet_perim eos_tb ppc 100 o_casts (f 1 (-3)) no_ml 10 [0; 0; 0] tri_ptr tri_ind' 0 10 o_stp = Ok (new', stp')
    /\ nth_error stp n = Some (s, t, p) /\ nth_error stp' n = Some (s', t', p')
    /\ ltb (add p' (lit 1 0)) p = true.
Proof. exact perim_order. Qed.
Print Assumptions C32_order_insensitive_refuted.

(** The documentation of n_rep: "To perform wetting as many times as necessary
    until no further NTP links are possible, give n_rep as a very large int".
    After 1000 permitted passes a valid link from wet node n to dry node m remains. *)
Theorem C32_no_further_links_refuted :
  exists new stp n m r,
    bfs_conncomp1_wet_perim eos_tb ppc 100 c_casts (f 1 (-3)) no_ml 10 [0; 0; 0] tri_ptr tri_ind 0 1000 o_stp = Ok (new, stp)
    /\ wet_at stp n /\ adj tri_ptr tri_ind n m /\ ~ wet_at stp m
    /\ link_p eos_tb ppc 100 c_casts (f 1 (-3)) stp n m (Ok r) /\ below_ml no_ml n r.
Proof. exact perim_not_exhaustive. Qed.
Print Assumptions C32_no_further_links_refuted.

(** the hypotheses of C31 and C32 are met by these examples *)
Example C31_witness :
  csr 3 tri_ptr tri_ind /\ length w_casts = 3 /\ length w_ml = 3 /\ length w_stp = 3
  /\ (forall S T P, In (S, T, P) w_casts -> length S <= length P)
  /\ isfinite (nan : f64) = false
  /\ exists stp, bfs_conncomp1_wet eos_s ppc 100 w_casts (f 1 (-3)) w_ml 10 [0; 0; 0] tri_ptr tri_ind 0 w_stp
                 = Ok ([0; 1; 2], 1, stp).
Proof. exact wet_witness. Qed.

Example C32_witness :
  csr 3 tri_ptr tri_ind /\ length o_casts = 3 /\ length no_ml = 3 /\ length o_stp = 3
  /\ (forall S T P, In (S, T, P) o_casts -> length S <= length P)
  /\ isfinite (nan : f64) = false
  /\ exists stp, bfs_conncomp1_wet_perim eos_tb ppc 100 o_casts (f 1 (-3)) no_ml 10 [0; 0; 0] tri_ptr tri_ind 0 10 o_stp
                 = Ok (2, stp).
Proof. exact perim_witness. Qed.

(** ** In exact arithmetic neither search raises, and both terminate: every NTP
    calculation they make succeeds. *)
Theorem C31_wetting_total :
  forall D eos rho, eos_on D eos rho -> forall ppc_fn rel, interpolator ppc_fn rel ->
  forall casts tol p_ml fuel N indptr indices root stp0,
    csr N indptr indices -> length casts = N -> length p_ml = N -> length stp0 = N -> (0 < tol)%R ->
    (forall c, In c casts -> any_cast c /\ cast_in D c /\ enough_fuel fuel tol c) ->
    (forall n b, wet_at stp0 n -> nth_error stp0 n = Some b -> bottle_in D b) ->
    forall junk lf, root < N -> N <= length junk -> N < lf ->
    exists r, bfs_conncomp1_wet eos ppc_fn fuel casts (Fin tol) p_ml lf junk indptr indices root stp0 = Ok r.
Proof. exact bfs_wet_total. Qed.
Print Assumptions C31_wetting_total.

Theorem C32_perimeter_total :
  forall D eos rho, eos_on D eos rho -> forall ppc_fn rel, interpolator ppc_fn rel ->
  forall casts tol p_ml fuel N indptr indices root stp0,
    csr N indptr indices -> length casts = N -> length p_ml = N -> length stp0 = N -> (0 < tol)%R ->
    (forall c, In c casts -> any_cast c /\ cast_in D c /\ enough_fuel fuel tol c) ->
    (forall n b, wet_at stp0 n -> nth_error stp0 n = Some b -> bottle_in D b) ->
    forall junk n_rep lf, root < N -> N <= length junk -> N < lf ->
    exists r, bfs_conncomp1_wet_perim eos ppc_fn fuel casts (Fin tol) p_ml lf junk indptr indices root n_rep stp0 = Ok r.
Proof. exact bfs_wet_perim_total. Qed.
Print Assumptions C32_perimeter_total.

Example C31_witness_total :
  csr 2 [0; 1; 2] [1; 0] /\ (forall c, In c [(exY, exT, exX); (exY, exT, exX)] -> any_cast c /\ cast_in exD c /\ enough_fuel 13 1 c)
  /\ (forall n b, wet_at [(Fin 5, Fin 2, Fin 0); (NaN, NaN, NaN)] n ->
        nth_error [(Fin 5, Fin 2, Fin 0); (NaN, NaN, NaN)] n = Some b -> bottle_in exD b).
Proof. exact wet_total_witness. Qed.
