(** * Property C64: interpolation on the fly, and from coefficients of whole arrays, in binary64 *)
From Coq Require Import String ZArith Reals List SpecFloat.
From Verif Require Import Num XR SF Res Arr M_ppinterp M_make_pp M_surfaces S_eos S_float S_interp S_domain S_traj S_vertsolve S_vert64 S_omega S_omega64
  P_fly64 Ex_vert64 Ex_fly64.
Import ListNotations.
Local Open Scope R_scope.

Theorem C64_linear : forall M, powerRZ 2 (-90) <= M <= powerRZ 2 90 ->
  interpolates64 (fun x X Y => linear_interp_1 x X Y 0) linear_fun (powerRZ 2 (-900)) (powerRZ 2 900) M (powerRZ 2 (-49) * M).
Proof. exact linear_fly64. Qed.
Print Assumptions C64_linear.

Theorem C64_pchip : forall M, powerRZ 2 (-90) <= M <= powerRZ 2 90 ->
  interpolates64 (fun x X Y => pchip_interp_1 x X Y 0) pchip_fun (powerRZ 2 (-60)) (powerRZ 2 60) M (204 * (powerRZ 2 (-53) * M)).
Proof. exact pchip_fly64. Qed.
Print Assumptions C64_pchip.

Theorem C64_linear_coefficients : forall (junk : f64) M, powerRZ 2 (-90) <= M <= powerRZ 2 90 ->
  interpolates64 (fun x X Y => let! C := linear_coeffs_1 junk X Y in ppval_1 x X C 0) linear_fun (powerRZ 2 (-900)) (powerRZ 2 900) M (powerRZ 2 (-49) * M).
Proof. exact linear_table64. Qed.
Print Assumptions C64_linear_coefficients.

Theorem C64_pchip_coefficients : forall (junk : f64) M, powerRZ 2 (-90) <= M <= powerRZ 2 90 ->
  interpolates64 (fun x X Y => let! C := pchip_coeffs_1 junk X Y in ppval_1 x X C 0) pchip_fun (powerRZ 2 (-60)) (powerRZ 2 60) M (204 * (powerRZ 2 (-53) * M)).
Proof. exact pchip_table64. Qed.
Print Assumptions C64_pchip_coefficients.

Theorem C64_columns : forall interp ppc rel e, scheme64 interp ppc rel e ->
  exists itp, make_pp interp "u" "interp" true 2 = Ok itp /\ column_interp64 rel e (interp_two_named itp).
Proof. exact scheme_fly64. Qed.
Print Assumptions C64_columns.

Example C64_witness : holds_all (snd colE) (snd colE') /\ holds_all (fst (fst colE)) (fst (fst colE'))
  /\ block (snd colE') (fst (fst colE')) 1 4 (lev [0; 10; 600; 2000]%Z) (lev [0; 34; 35; 35]%Z)
  /\ steps 1 4 (lev [0; 10; 600; 2000]%Z) (powerRZ 2 (-60)) (powerRZ 2 60)
  /\ forall i, (1 <= i < 4)%nat -> Rabs (lev [0; 34; 35; 35]%Z i) <= 42.
Proof. exact fly_block. Qed.
Example C64_inside : inside64 (lit 1000 0 : f64) (lev [0; 10; 600; 2000]%Z 1) (lev [0; 10; 600; 2000]%Z 3).
Proof. exact colE_inside. Qed.
Example C64_columns_witness : holds_column colE colE' /\ any_cast colE' /\ same_extent colE' /\ cast_in (sea (/ 1000) 10000) colE' /\ column_spaced colE'.
Proof. exact (conj colE_holds colE_ok). Qed.
Example C64_run : interp_two_named "pchip_interp_two" (lit 1000 0 : f64) (snd colE) (fst (fst colE)) (snd (fst colE)) = Ok fly_value
  /\ isfinite (fst fly_value) = true /\ isfinite (snd fly_value) = true.
Proof. exact fly_run. Qed.
Example C64_run_outside : interp_two_named "pchip_interp_two" (lit 5 0 : f64) (snd colE) (fst (fst colE)) (snd (fst colE)) = Ok (nan, nan).
Proof. exact fly_outside. Qed.
