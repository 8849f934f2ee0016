(** * Properties C39, C40, C41, C50: the equations of state (eos/jmd95.py, eos/jmdfwg06.py, eos/gsw.py)

    Division is that of a compiled scalar function ([sdiv]) or of numpy arrays ([adiv]). *)
From Coq Require Import ZArith Reals List.
From Verif Require Import Num XR Res M_eos_base M_jmd95 M_jmdfwg06 M_gsw S_eos S_traj S_ntp P_eosx P_eosocean2 Ex_eos.
Local Open Scope R_scope.

(** rho is the published formula, rho_s_t and rho_p are its partial derivatives *)
Theorem C39_derivatives : forall dv : R -> R -> res R, dv = sdiv \/ dv = adiv -> forall s t p, jm_dom s t p ->
  jmd95_rho dv s t p = Ok (jm_rho s t p) /\
  (exists rp, jmd95_rho_p dv s t p = Ok rp /\ diff_p jm_rho s t p rp) /\
  (0 < s -> exists rs rt, jmd95_rho_s_t dv s t p = Ok (rs, rt) /\
              diff_s jm_rho s t p rs /\ diff_t jm_rho s t p rt).
Proof. exact jm_all. Qed.
Print Assumptions C39_derivatives.

Theorem C40_derivatives : forall dv : R -> R -> res R, dv = sdiv \/ dv = adiv -> forall s t p, jf_dom s t p ->
  jmdfwg06_rho dv s t p = Ok (jf_rho s t p) /\
  (exists rp, jmdfwg06_rho_p dv s t p = Ok rp /\ diff_p jf_rho s t p rp) /\
  (0 < s -> exists rs rt, jmdfwg06_rho_s_t dv s t p = Ok (rs, rt) /\
              diff_s jf_rho s t p rs /\ diff_t jf_rho s t p rt).
Proof. exact jf_all. Qed.
Print Assumptions C40_derivatives.

(** h a b c: order a in SA, b in CT, c in p *)
Theorem C41_derivatives : exists H : nat -> nat -> nat -> R -> R -> R -> R,
  (forall s t p, H 0%nat 0%nat 0%nat s t p = teos_v s t p) /\
  (forall a b c s t p, (a < 3)%nat -> 0 < s -> diff_s (H a b c) s t p (H (S a) b c s t p)) /\
  (forall a b c s t p, diff_t (H a b c) s t p (H a (S b) c s t p)) /\
  (forall a b c s t p, diff_p (H a b c) s t p (H a b (S c) s t p)) /\
  forall dv : R -> R -> res R, dv = sdiv \/ dv = adiv -> forall s t p,
  let h a b c := H a b c s t p in
    gsw_specvol s t p = Ok (h 0 0 0)%nat /\
    gsw_specvol_s_t dv s t p = Ok (h 1 0 0, h 0 1 0)%nat /\
    gsw_specvol_p s t p = Ok (h 0 0 1)%nat /\
    gsw_specvol_first_derivs dv s t p = Ok (h 1 0 0, h 0 1 0, h 0 0 1)%nat /\
    gsw_specvol_second_derivs dv s t p = Ok (h 2 0 0, h 1 1 0, h 0 2 0, h 1 0 1, h 0 1 1, h 0 0 2)%nat /\
    gsw_specvol_third_derivs dv s t p =
      Ok (h 3 0 0, h 2 1 0, h 1 2 0, h 0 3 0, h 2 0 1, h 1 1 1, h 0 2 1, h 1 0 2, h 0 1 2, h 0 0 3)%nat /\
    gsw_specvol_s_t_ss_st_tt_sp_tp dv s t p =
      Ok (h 1 0 0, h 0 1 0, h 2 0 0, h 1 1 0, h 0 2 0, h 1 0 1, h 0 1 1)%nat /\
    gsw_specvol_s_t_ss_st_tt_sp_tp_sss_sst_stt_ttt_ssp_stp_ttp_spp_tpp dv s t p =
      Ok (h 1 0 0, h 0 1 0, h 2 0 0, h 1 1 0, h 0 2 0, h 1 0 1, h 0 1 1,
          h 3 0 0, h 2 1 0, h 1 2 0, h 0 3 0, h 2 0 1, h 1 1 1, h 0 2 1, h 1 0 2, h 0 1 2)%nat.
Proof. exact teos_all. Qed.
Print Assumptions C41_derivatives.

(** so specvol and specvol_s_t meet what the theorems on surfaces and trajectories
    ask of an equation of state *)
Theorem C41_real : eos_real gsw_specvol teos_v /\
  exists vs vt, (forall s t p, 0 < s -> diff_s teos_v s t p (vs s t p)) /\
    (forall s t p, diff_t teos_v s t p (vt s t p)) /\
    forall dv : xr -> xr -> res xr, dv = sdiv \/ dv = adiv -> eos_s_t_real (gsw_specvol_s_t dv) vs vt.
Proof. exact teos_x_all. Qed.
Print Assumptions C41_real.

(** below zero salinity specvol is constant in SA, but a non-zero SA derivative is returned *)
Theorem C41_clamped : forall dv : R -> R -> res R, dv = sdiv \/ dv = adiv ->
  forall s t p, s < 0 -> -3 <= t <= 40 -> 0 <= p <= 10000 ->
  diff_s teos_v s t p 0 /\
  exists vs vt, gsw_specvol_s_t dv s t p = Ok (vs, vt) /\ ~ diff_s teos_v s t p vs.
Proof. exact teos_clamped. Qed.
Print Assumptions C41_clamped.

Theorem C41_clamped_refuted : exists s t p vs vt, gsw_specvol_s_t sdiv s t p = Ok (vs, vt) /\ ~ diff_s teos_v s t p vs.
Proof. exact teos_clamped_at. Qed.
Print Assumptions C41_clamped_refuted.

(** over the oceanographic range: no division by zero; positive; density increases (specific
    volume decreases) with pressure and with salinity *)
Theorem C50_jmd95_signs : forall dv : R -> R -> res R, dv = sdiv \/ dv = adiv -> forall s t p, ocean s t p ->
  (exists r, jmd95_rho dv s t p = Ok r /\ 0 < r) /\
  (exists rp, jmd95_rho_p dv s t p = Ok rp /\ 0 < rp) /\
  (0 < s -> exists rs rt, jmd95_rho_s_t dv s t p = Ok (rs, rt) /\ 0 < rs).
Proof. exact jm_ocean. Qed.
Print Assumptions C50_jmd95_signs.

Theorem C50_jmd95_increasing : forall dv : R -> R -> res R, dv = sdiv \/ dv = adiv ->
  (forall s t p p' r r', ocean s t p -> ocean s t p' -> p < p' ->
     jmd95_rho dv s t p = Ok r -> jmd95_rho dv s t p' = Ok r' -> r < r') /\
  (forall s s' t p r r', ocean s t p -> ocean s' t p -> 0 < s < s' ->
     jmd95_rho dv s t p = Ok r -> jmd95_rho dv s' t p = Ok r' -> r < r').
Proof. exact jm_mono. Qed.
Print Assumptions C50_jmd95_increasing.

Theorem C50_jmdfwg06_signs : forall dv : R -> R -> res R, dv = sdiv \/ dv = adiv -> forall s t p, ocean s t p ->
  (exists r, jmdfwg06_rho dv s t p = Ok r /\ 0 < r) /\
  (exists rp, jmdfwg06_rho_p dv s t p = Ok rp /\ 0 < rp) /\
  (0 < s -> exists rs rt, jmdfwg06_rho_s_t dv s t p = Ok (rs, rt) /\ 0 < rs).
Proof. exact jf_ocean. Qed.
Print Assumptions C50_jmdfwg06_signs.

Theorem C50_jmdfwg06_increasing : forall dv : R -> R -> res R, dv = sdiv \/ dv = adiv ->
  (forall s t p p' r r', ocean s t p -> ocean s t p' -> p < p' ->
     jmdfwg06_rho dv s t p = Ok r -> jmdfwg06_rho dv s t p' = Ok r' -> r < r') /\
  (forall s s' t p r r', ocean s t p -> ocean s' t p -> 0 < s < s' ->
     jmdfwg06_rho dv s t p = Ok r -> jmdfwg06_rho dv s' t p = Ok r' -> r < r').
Proof. exact jf_mono. Qed.
Print Assumptions C50_jmdfwg06_increasing.

Theorem C50_gsw_signs : forall dv : R -> R -> res R, dv = sdiv \/ dv = adiv -> forall s t p, ocean s t p ->
  (exists v, gsw_specvol s t p = Ok v /\ 0 < v) /\
  (exists vp, gsw_specvol_p s t p = Ok vp /\ vp < 0) /\
  (exists vs vt, gsw_specvol_s_t dv s t p = Ok (vs, vt) /\ vs < 0).
Proof. exact teos_ocean. Qed.
Print Assumptions C50_gsw_signs.

Theorem C50_gsw_decreasing :
  (forall s t p p' v v', ocean s t p -> ocean s t p' -> p < p' ->
     gsw_specvol s t p = Ok v -> gsw_specvol s t p' = Ok v' -> v' < v) /\
  (forall s s' t p v v', ocean s t p -> ocean s' t p -> 0 < s < s' ->
     gsw_specvol s t p = Ok v -> gsw_specvol s' t p = Ok v' -> v' < v).
Proof. exact teos_mono. Qed.
Print Assumptions C50_gsw_decreasing.

(** the hypotheses are met by ordinary sea water *)
Example C39_nonvacuous : jm_dom 35 10 1000. Proof. exact sea_jm. Qed.
Example C40_nonvacuous : jf_dom 35 10 1000. Proof. exact sea_jf. Qed.
Example C50_nonvacuous : ocean 35 10 1000. Proof. exact sea. Qed.
