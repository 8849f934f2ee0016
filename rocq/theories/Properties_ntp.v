(** * Property C38: neutrality errors and their norms (ntp.py) *)
From Coq Require Import ZArith Bool Reals List SpecFloat Permutation.
From Verif Require Import Num XR SF Res Arr M_lib M_ntp S_graph S_lib S_ntp P_ntp P_ntp2 Ex_traj Ex_ntp.
Import ListNotations.
Local Open Scope R_scope.

(** the error per distance on every edge; distances default to 1 here *)
Theorem C38_errors :
  forall eos_s_t D rs rt stp edges n dist l w,
    eos_s_t_on D eos_s_t rs rt -> nan_safe eos_s_t -> (forall x, In x stp -> bottle_in D x \/ missing x) ->
    length stp = n -> in_range edges n ->
    match dist with
    | Some g => distances g (length edges) l /\ Forall (fun x => x <> 0) l
    | None => l = repeat 1 (length edges)
    end ->
    exists e, ntp_epsilon_errors eos_s_t stp (GDict (Some edges) dist w) = Ok e /\ length e = length edges
      /\ forall i a b x y d, nth_error edges i = Some (a, b) -> nth_error stp a = Some x -> nth_error stp b = Some y ->
           nth_error l i = Some d ->
           (forall wa wb, finite_bottle x wa -> finite_bottle y wb -> nth_error e i = Some (Fin (water_error rs rt wa wb / d)))
           /\ (dry x \/ dry y -> nth_error e i = Some NaN).
Proof. exact errors_correct. Qed.
Print Assumptions C38_errors.

Theorem C38_identical_water : forall rs rt s t p p', water_error rs rt (s, t, p) (s, t, p') = 0.
Proof. exact same_water. Qed.
Print Assumptions C38_identical_water.

(** any equation of state, any distances, any values *)
Theorem C38_antisymmetric :
  forall eos_s_t stp edges dist w e,
    ntp_epsilon_errors eos_s_t stp (GDict (Some edges) dist w) = Ok e ->
    ntp_epsilon_errors eos_s_t stp (GDict (Some (map swap edges)) dist w) = Ok (map xr_opp e).
Proof. exact errors_swap. Qed.
Print Assumptions C38_antisymmetric.

(** area weighted mean over the edges whose error is a number *)
Theorem C38_norms :
  forall eos_s_t stp edges dist distperp e d w,
    ntp_epsilon_errors eos_s_t stp (GTuple edges) = Ok e -> Forall number_or_nan e ->
    distances dist (length edges) d -> distances distperp (length edges) w ->
    Forall (fun x => 0 < x) d -> Forall (fun x => 0 <= x) w ->
    ntp_epsilon_errors_norms eos_s_t stp (GDict (Some edges) (Some dist) (Some distperp)) =
      Ok (if Req_EM_T (total (samples e d w)) 0 then (Fin 0, Fin 0)
          else (Fin (sqrt (wmean (fun x => x * x) (samples e d w))), Fin (wmean Rabs (samples e d w)))).
Proof. exact norms_correct_tuple. Qed.
Print Assumptions C38_norms.

Theorem C38_mav_rms_max :
  forall e d w M, Forall (fun x => 0 < x) d -> Forall (fun x => 0 <= x) w -> total (samples e d w) <> 0 ->
    Forall (fun s => Rabs (snd s) <= M) (samples e d w) ->
    0 <= wmean Rabs (samples e d w) <= sqrt (wmean (fun x => x * x) (samples e d w))
    /\ sqrt (wmean (fun x => x * x) (samples e d w)) <= M.
Proof. exact norm_inequalities. Qed.
Print Assumptions C38_mav_rms_max.

(** reversing some edges, or listing the edges in another order, changes nothing *)
Theorem C38_reversal :
  forall eos_s_t (stp : list bottle) edges edges' dist distperp, Forall2 (fun e e' => e' = e \/ e' = swap e) edges edges' ->
    ntp_epsilon_errors_norms eos_s_t stp (GDict (Some edges') dist distperp)
    = ntp_epsilon_errors_norms eos_s_t stp (GDict (Some edges) dist distperp).
Proof. exact norms_reversed. Qed.
Print Assumptions C38_reversal.
Theorem C38_permutation :
  forall eos_s_t (stp : list bottle) L L' r, Permutation L L' ->
    ntp_epsilon_errors_norms eos_s_t stp (grid_of L) = Ok r ->
    ntp_epsilon_errors_norms eos_s_t stp (grid_of L') = Ok r.
Proof. exact norms_permuted. Qed.
Print Assumptions C38_permutation.

(** "dist : 1d array, Default 1.0": there is no default *)
Theorem C38_default_refuted :
  exists (stp : list (f64 * f64 * f64)) edges w d,
    ntp_epsilon_errors_norms fst1 stp (GDict (Some edges) None (Some w)) = Err KeyError
    /\ ntp_epsilon_errors_norms fst1 stp (GDict (Some edges) (Some d) None) = Err KeyError
    /\ is_ok (ntp_epsilon_errors fst1 stp (GDict (Some edges) None None)) = true.
Proof. exact missing_refuted. Qed.
Print Assumptions C38_default_refuted.

(** an edge to a dry cast is not ignored if its distance is NaN *)
Theorem C38_nan_distance_refuted :
  exists (stp : list (f64 * f64 * f64)) edges d d' w,
    ntp_epsilon_errors_norms fst1 stp (GDict (Some edges) (Some (Ar [d; d'])) (Some w)) = Ok (fl 2, fl 2)
    /\ ntp_epsilon_errors_norms fst1 stp (GDict (Some edges) (Some (Ar [d; nan])) (Some w)) = Ok (nan, nan)
    /\ nth_error stp 2 = Some (nan, nan, nan) /\ edges = [(0, 1); (1, 2)]%nat.
Proof. exact nan_distance_refuted. Qed.
Print Assumptions C38_nan_distance_refuted.

Example C38_witness :
  eos_s_t_on exD exst (fun _ _ _ => 1) (fun _ t _ => t) /\ nan_safe exst
  /\ (forall x, In x ex_surface -> bottle_in exD x \/ missing x)
  /\ in_range ex_edges (length ex_surface)
  /\ distances (Ar [Fin 2; Fin 3]) 2 [2; 3] /\ distances (Sc (Fin 5)) 2 [5; 5]
  /\ ntp_epsilon_errors exst ex_surface (GTuple ex_edges) = Ok [Fin 8; NaN]
  /\ samples [Fin 8; NaN] [2; 3] [5; 5] = [(2 * 5, 8 / 2)] /\ total [(2 * 5, 8 / 2)] <> 0.
Proof. exact ntp_witness. Qed.
