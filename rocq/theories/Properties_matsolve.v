(** * Property C36: the matrix problem of omega surfaces (omega.py) *)
From Coq Require Import ZArith Bool Reals List.
From Verif Require Import Num XR Res Arr M_ntp M_matsolve S_graph S_lib S_ntp S_matsolve P_linalg P_matsolve P_matsolve2 Ex_traj Ex_ntp Ex_matsolve.
Import ListNotations.
Local Open Scope R_scope.

(** the result vanishes at mref, is NaN outside m, and minimises the weighted
    squared errors; every other minimiser differs by a constant *)
Theorem C36_poisson :
  forall eos_s_t rs rt D, eos_s_t_on D eos_s_t rs rt ->
  forall stp edges fac m mref w, region stp edges fac m mref w -> (forall i, In i m -> water_in D (w i)) ->
  forall spsolve distratio, exact_spsolve spsolve -> distances distratio (length edges) fac ->
    exists phi, matsolve_poisson eos_s_t spsolve stp edges distratio m mref = Ok phi
      /\ least_squares (length stp) m mref (objective edges fac m (fun a b => water_error rs rt (w a) (w b))) phi.
Proof. exact poisson_correct. Qed.
Print Assumptions C36_poisson.

(** the gradient formulation gets the square roots of the weights *)
Theorem C36_gradient :
  forall eos_s_t rs rt D, eos_s_t_on D eos_s_t rs rt ->
  forall stp edges fac m mref w, region stp edges fac m mref w -> (forall i, In i m -> water_in D (w i)) ->
  forall lsqr sqrtdistratio, exact_lsqr lsqr -> distances sqrtdistratio (length edges) (map sqrt fac) ->
    exists phi, matsolve_gradient eos_s_t lsqr stp edges sqrtdistratio m mref = Ok phi
      /\ least_squares (length stp) m mref (objective edges fac m (fun a b => water_error rs rt (w a) (w b))) phi.
Proof. exact gradient_correct. Qed.
Print Assumptions C36_gradient.

Theorem C36_formulations_agree :
  forall D eos_s_t rs rt stp edges fac m mref w spsolve lsqr distratio sqrtdistratio,
    eos_s_t_on D eos_s_t rs rt -> region stp edges fac m mref w -> (forall i, In i m -> water_in D (w i)) -> exact_spsolve spsolve -> exact_lsqr lsqr ->
    distances distratio (length edges) fac -> distances sqrtdistratio (length edges) (map sqrt fac) ->
    matsolve_poisson eos_s_t spsolve stp edges distratio m mref = matsolve_gradient eos_s_t lsqr stp edges sqrtdistratio m mref.
Proof. exact solvers_agree. Qed.
Print Assumptions C36_formulations_agree.

(** spsolve is only given symmetric positive definite matrices of numbers:
    what it does on others has no influence *)
Theorem C36_positive_definite :
  forall D eos_s_t rs rt stp edges fac m mref w distratio sp sp',
    eos_s_t_on D eos_s_t rs rt -> region stp edges fac m mref w -> (forall i, In i m -> water_in D (w i)) -> distances distratio (length edges) fac ->
    (forall N A M r, real_matrix N N A M -> positive_definite N M -> length r = N -> sp N A (map Fin r) = sp' N A (map Fin r)) ->
    matsolve_poisson eos_s_t sp stp edges distratio m mref = matsolve_poisson eos_s_t sp' stp edges distratio m mref.
Proof. exact poisson_only_pd. Qed.
Print Assumptions C36_positive_definite.

(** lsqr is only given matrices of full column rank *)
Theorem C36_full_rank :
  forall D eos_s_t rs rt stp edges fac m mref w sqrtdistratio ls ls',
    eos_s_t_on D eos_s_t rs rt -> region stp edges fac m mref w -> (forall i, In i m -> water_in D (w i)) -> distances sqrtdistratio (length edges) (map sqrt fac) ->
    (forall k N A M r, real_matrix k N A M -> full_column_rank k N M -> length r = k -> ls k N A (map Fin r) = ls' k N A (map Fin r)) ->
    matsolve_gradient eos_s_t ls stp edges sqrtdistratio m mref = matsolve_gradient eos_s_t ls' stp edges sqrtdistratio m mref.
Proof. exact gradient_only_full_rank. Qed.
Print Assumptions C36_full_rank.

(** Gaussian elimination satisfies both contracts; a region with one edge *)
Example C36_witness :
  exact_spsolve ge_spsolve /\ exact_lsqr ge_lsqr /\ eos_s_t_on exD exst (fun _ _ _ => 1) (fun _ t _ => t)
  /\ region ex_surface ex_edges [2; 3] [1; 0]%nat 0 ex_water /\ (forall i, In i [1; 0]%nat -> water_in exD (ex_water i))
  /\ distances (Ar [Fin 2; Fin 3]) 2 [2; 3]
  /\ matsolve_poisson exst ge_spsolve ex_surface ex_edges (Ar [Fin 2; Fin 3]) [1; 0]%nat 0 = Ok [Fin 0; Fin (-8); NaN].
Proof. exact matsolve_witness. Qed.
Print Assumptions C36_witness.
