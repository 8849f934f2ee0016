(** * The mixed layer in binary64 *)
From Coq Require Import String ZArith Reals List SpecFloat.
From Verif Require Import Num XR SF Res Arr Nd M_ppinterp M_eostools M_lib M_mixed_layer S_eos S_float S_interp S_domain S_named S_traj S_vertsolve
  S_lib S_mixed_layer S_surfaces S_vert64 S_entry64 S_omega64 S_ml64 P_ml64c Ex_vert64 Ex_entry64 Ex_ml64.
Import ListNotations.
Local Open Scope R_scope.

(** Columns with stable stratification, by steps of at least 3 d: the result is the value of the interpolant of the pressures over excesses of
    potential density in error by at most d. *)
Theorem C68_stable : forall name rho s0 d grav rho_c zp pm, density name rho -> excess64 name s0 d -> coordinate64 grav rho_c zp pm -> 1000 <= pm ->
  forall interp fn rel e, pressure_scheme64 interp fn rel e ->
  forall S T P v s1 n s2 c c', water_columns S T P v s1 n s2 c ->
  forall (ref x : f64) b B, finite64 ref -> 0 <= fval ref <= pm -> float64 x -> py_index n b B ->
  let R := fun s t => rho s t (fval ref * zp) in
  (forall h, valid (s1 ++ s2) h -> holds_column (c h) (c' h) /\ mixable (sea s0 pm) R B d (c' h)) ->
  exists out, mixed_layer S T P (AStr name) grav rho_c x ref b interp v = Ok out /\ shape out = s1 ++ s2 /\ wf out
    /\ forall h, valid (s1 ++ s2) h -> exists y, at_ out h = Some y /\ mixed64 rel (sea s0 pm) R B d e (c' h) x y.
Proof. exact entry_stable64. Qed.
Print Assumptions C68_stable.

(** Any columns, interpolated linearly: a pressure at which the excess is the threshold up to d. *)
Theorem C68_linear : forall name rho s0 d grav rho_c zp pm, density name rho -> excess64 name s0 d -> coordinate64 grav rho_c zp pm -> 1000 <= pm ->
  forall S T P v s1 n s2 c c', water_columns S T P v s1 n s2 c ->
  forall (ref x : f64) b B, finite64 ref -> 0 <= fval ref <= pm -> float64 x -> py_index n b B ->
  let R := fun s t => rho s t (fval ref * zp) in
  (forall h, valid (s1 ++ s2) h -> holds_column (c h) (c' h) /\ decided (sea s0 pm) R B d (c' h) x) ->
  exists out, mixed_layer S T P (AStr name) grav rho_c x ref b "linear" v = Ok out /\ shape out = s1 ++ s2 /\ wf out
    /\ forall h, valid (s1 ++ s2) h -> exists y, at_ out h = Some y /\ crossing64 (sea s0 pm) R B d (dec 2 (-11)) (c' h) x y.
Proof. exact entry_linear64. Qed.
Print Assumptions C68_linear.

(** ** Cases that meet the hypotheses *)
Example C68_hypotheses :
  density "jmd95" jm_rho /\ excess64 "jmd95" (/ 1000) (dec 6 (-12)) /\ coordinate64 None None 1 10000
  /\ water_columns eS eT eP (VInt (-1)) [2%nat] 4 [] ecol /\ finite64 (lit 0 0 : f64) /\ fval (lit 0 0 : f64) = 0 /\ float64 half /\ py_index 4 1 1
  /\ (forall h, valid ([2%nat] ++ []) h -> holds_column (ecol h) (ecol' h) /\ mixable (sea (/ 1000) 10000) pot 1 (dec 6 (-12)) (ecol' h))
  /\ water_columns uS uT uP (VInt 0) [] 3 [] (fun _ => colU) /\ py_index 3 0 0
  /\ (forall h : list nat, holds_column colU colU' /\ decided (sea (/ 1000) 10000) pot 0 (dec 6 (-12)) colU' half) /\ dU 2 < dU 1.
Proof. exact ml64_case. Qed.
Example C68_run : (ml_run "linear", ml_run "pchip") = ml_value.
Proof. exact ml_runs. Qed.
