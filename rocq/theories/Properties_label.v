(** * Property C43 (label.py: veronis) *)
From Coq Require Import String ZArith Reals List.
From Coquelicot Require Import Coquelicot.
From Verif Require Import Num XR Res M_eos_base M_eostools M_label S_interp S_traj S_label P_label3 Ex_label.
Import ListNotations.
Local Open Scope R_scope.

(** The result is the potential density at p0 plus b times the integral of the vertical gradient
    of locally referenced potential density, up to the error of the trapezoidal rule with steps
    of at most dp: second order in dp, and none when the gradient is affine between levels.
    (The steps run from p1 down to the next level and back, hence the width W of a layer.) *)
Theorem C43_accuracy : forall junk interp S T P K ss ts ps gS gT eos grav rho_c p0 p1 p_ref d0 f g b dp M W,
  profile S T P K ss ts ps -> interpolants interp K ss ts ps gS gT ->
  density eos grav rho_c K ps gS gT p0 p_ref d0 f g ->
  in_range K ps p0 -> in_range K ps p1 -> 0 < dp ->
  smooth_pieces K ps (gradient f g gS gT) M -> spacing K ps W ->
  exists I v, is_RInt (gradient f g gS gT) p0 p1 I /\
    veronis junk (Fin p1) S T P (Some (Fin p0)) (Fin p_ref) (Fin b) (Fin dp) interp eos grav rho_c = Ok (Fin v) /\
    Rabs (v - (d0 + b * I)) <= Rabs b * (M * dp ^ 2 / 12 * (Rabs (p1 - p0) + 2 * W)).
Proof. exact accuracy. Qed.
Print Assumptions C43_accuracy.

(** without any smoothness: the result tends to the integral as dp tends to 0 *)
Theorem C43_convergence : forall junk interp S T P K ss ts ps gS gT eos grav rho_c p0 p1 p_ref d0 f g b,
  profile S T P K ss ts ps -> interpolants interp K ss ts ps gS gT ->
  density eos grav rho_c K ps gS gT p0 p_ref d0 f g ->
  in_range K ps p0 -> in_range K ps p1 ->
  exists I, is_RInt (gradient f g gS gT) p0 p1 I /\
  forall eps, 0 < eps -> exists delta, 0 < delta /\ forall dp, 0 < dp <= delta -> exists v,
    veronis junk (Fin p1) S T P (Some (Fin p0)) (Fin p_ref) (Fin b) (Fin dp) interp eos grav rho_c = Ok (Fin v) /\
    Rabs (v - (d0 + b * I)) <= eps.
Proof. exact convergence. Qed.
Print Assumptions C43_convergence.

(** for every dp the computed integrals add up exactly, in any order of p0, q, p1 *)
Theorem C43_additive : forall junk interp S T P K ss ts ps gS gT eos grav rho_c p0 q p1 p_ref d0 dq f g b dp,
  profile S T P K ss ts ps -> interpolants interp K ss ts ps gS gT ->
  density eos grav rho_c K ps gS gT p0 p_ref d0 f g -> density eos grav rho_c K ps gS gT q p_ref dq f g ->
  in_range K ps p0 -> in_range K ps q -> in_range K ps p1 -> 0 < dp ->
  exists A B,
    veronis junk (Fin q) S T P (Some (Fin p0)) (Fin p_ref) (Fin b) (Fin dp) interp eos grav rho_c = Ok (Fin (d0 + b * A)) /\
    veronis junk (Fin p1) S T P (Some (Fin q)) (Fin p_ref) (Fin b) (Fin dp) interp eos grav rho_c = Ok (Fin (dq + b * B)) /\
    veronis junk (Fin p1) S T P (Some (Fin p0)) (Fin p_ref) (Fin b) (Fin dp) interp eos grav rho_c = Ok (Fin (d0 + b * (A + B))) /\
    (q = p0 -> A = 0).
Proof. exact additive. Qed.
Print Assumptions C43_additive.

(** a cast without missing data: NaN when p0 or p1 is not a number in the range of P *)
Theorem C43_outside : forall junk interp S T P K ss ts ps eos grav rho_c p0 p1 p_ref b dp,
  profile S T P K ss ts ps -> length P = K -> interp = "linear"%string \/ interp = "pchip"%string ->
  (exists h x h2 y, _process_eos sdiv eos grav rho_c true = Ok (F1 h, x) /\
     _process_eos adiv eos grav rho_c true = Ok (y, Some (F2 h2)) /\ forall s t, exists v, h s t p_ref = Ok v) ->
  ~ inside K ps p0 \/ ~ inside K ps p1 ->
  veronis junk p1 S T P (Some p0) p_ref b dp interp eos grav rho_c = Ok NaN.
Proof. exact outside. Qed.
Print Assumptions C43_outside.

Theorem C43_default_p0 : forall F (N : Num F) junk (p1 : F) S T P x p_ref b dp interp eos grav rho_c,
  veronis junk p1 S T (x :: P) None p_ref b dp interp eos grav rho_c
  = veronis junk p1 S T (x :: P) (Some x) p_ref b dp interp eos grav rho_c.
Proof. exact @default_p0. Qed.
Print Assumptions C43_default_p0.

(** Where the gradient is at least m between q and p1 and the error of the trapezoidal rule is smaller than the change, the density increases
    from q to p1, wherever p0 is. *)
Theorem C43_increasing : forall junk interp S T P K ss ts ps gS gT eos grav rho_c p0 q p1 p_ref d0 dq f g b dp M W m,
  profile S T P K ss ts ps -> interpolants interp K ss ts ps gS gT ->
  density eos grav rho_c K ps gS gT p0 p_ref d0 f g -> density eos grav rho_c K ps gS gT q p_ref dq f g ->
  in_range K ps p0 -> in_range K ps q -> in_range K ps p1 -> 0 < dp -> 0 < b -> q < p1 ->
  smooth_pieces K ps (gradient f g gS gT) M -> spacing K ps W ->
  (forall i x, (i + 1 < K)%nat -> ps i < x < ps (i + 1)%nat -> q < x < p1 -> m <= gradient f g gS gT x) ->
  M * dp ^ 2 / 12 * (p1 - q + 2 * W) < m * (p1 - q) ->
  exists u v, veronis junk (Fin q) S T P (Some (Fin p0)) (Fin p_ref) (Fin b) (Fin dp) interp eos grav rho_c = Ok (Fin u)
    /\ veronis junk (Fin p1) S T P (Some (Fin p0)) (Fin p_ref) (Fin b) (Fin dp) interp eos grav rho_c = Ok (Fin v) /\ u < v.
Proof. exact increasing. Qed.
Print Assumptions C43_increasing.

(** "the Veronis density increases along a stably stratified cast": not for the computed one *)
Theorem C43_monotone_refuted : exists S T P K ss ts ps gS gT eos p0 p1 p_ref d0 f g dp v,
  profile S T P K ss ts ps /\ interpolants "linear" K ss ts ps gS gT /\
  density eos None None K ps gS gT p0 p_ref d0 f g /\ in_range K ps p0 /\ in_range K ps p1 /\ 0 < dp /\
  (forall x, 1 <= gradient f g gS gT x) /\ p0 < p1 /\
  veronis NaN (Fin p1) S T P (Some (Fin p0)) (Fin p_ref) (Fin 1) (Fin dp) "linear" eos None None = Ok (Fin v) /\ v < d0.
Proof. exact not_monotone. Qed.
Print Assumptions C43_monotone_refuted.

(** "if p0 or p1 are outside the range of P, NaN is returned": not when P ends in NaN *)
Theorem C43_outside_padded_refuted : exists S T P K ss ts ps p1, profile S T P K ss ts ps /\ ~ inside K ps p1 /\
  veronis NaN p1 S T P None (Fin 0) (Fin 1) (Fin 1) "linear" eos2 None None = Err ValueError.
Proof. exact padded_raises. Qed.
Print Assumptions C43_outside_padded_refuted.

(** "eos : str or function": a function is always rejected *)
Theorem C43_function_refuted : forall F (N : Num F) junk (p1 : F) S T P p0 p_ref b dp interp f grav rho_c,
  veronis junk p1 S T P p0 p_ref b dp interp (AFun f) grav rho_c = Err ValueError.
Proof. exact @plain_function. Qed.
Print Assumptions C43_function_refuted.

(** ** The hypotheses can be met *)
Theorem C43_witness :
  profile S2 T2 S2 2 lev (fun _ => 0) lev /\ interpolants "linear" 2 lev (fun _ => 0) lev id2 zero2 /\
  (forall p0 p_ref, density eos2 None None 2 lev id2 zero2 p0 p_ref (p0 * (1 + p_ref * p_ref)) f2 zero2) /\
  smooth_pieces 2 lev (gradient f2 zero2 id2 zero2) 2 /\ spacing 2 lev 1.
Proof. exact (conj profile2 (conj interpolants2 (conj density2 (conj smooth2 spacing2)))). Qed.
Print Assumptions C43_witness.

Theorem C43_witness_increasing :
  exists u v, veronis NaN (Fin (/ 4)) S2 T2 S2 (Some (Fin 0)) (Fin 0) (Fin 1) (Fin (/ 10)) "linear" eos2 None None = Ok (Fin u)
  /\ veronis NaN (Fin (3 / 4)) S2 T2 S2 (Some (Fin 0)) (Fin 0) (Fin 1) (Fin (/ 10)) "linear" eos2 None None = Ok (Fin v) /\ u < v.
Proof. exact rises. Qed.
Print Assumptions C43_witness_increasing.
