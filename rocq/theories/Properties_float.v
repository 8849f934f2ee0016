(** * Property C54: rounding errors of the equations of state in binary64 *)
From Coq Require Import ZArith Reals SpecFloat.
From Verif Require Import Num SF Res M_eos_base M_jmd95 M_jmdfwg06 M_gsw S_eos S_float P_eosfloat2 P_eosfloat3 Ex_eosfloat.
Open Scope R_scope.

(** no exception, no overflow, no NaN; the value and the derivatives to about 14 digits *)
Theorem C54_jmd95 : forall dv : f64 -> f64 -> res f64, dv = sdiv \/ dv = adiv -> forall s t p,
  finite64 s -> finite64 t -> finite64 p -> ocean (fval s) (fval t) (fval p) ->
  (exists y, jmd95_rho dv s t p = Ok y /\ within y (jm_rho (fval s) (fval t) (fval p)) (dec 85 (-14))) /\
  (exists y r, jmd95_rho_p dv s t p = Ok y /\ diff_p jm_rho (fval s) (fval t) (fval p) r /\ within y r (dec 67 (-18))) /\
  (0 < fval s -> exists y z rs rt, jmd95_rho_s_t dv s t p = Ok (y, z) /\
     diff_s jm_rho (fval s) (fval t) (fval p) rs /\ diff_t jm_rho (fval s) (fval t) (fval p) rt /\
     within y rs (dec 53 (-16)) /\ within z rt (dec 93 (-16))).
Proof. exact jm_float. Qed.
Print Assumptions C54_jmd95.

Theorem C54_jmdfwg06 : forall dv : f64 -> f64 -> res f64, dv = sdiv \/ dv = adiv -> forall s t p,
  finite64 s -> finite64 t -> finite64 p -> ocean (fval s) (fval t) (fval p) ->
  (exists y, jmdfwg06_rho dv s t p = Ok y /\ within y (jf_rho (fval s) (fval t) (fval p)) (dec 29 (-13))) /\
  (exists y r, jmdfwg06_rho_p dv s t p = Ok y /\ diff_p jf_rho (fval s) (fval t) (fval p) r /\ within y r (dec 41 (-18))) /\
  (0 < fval s -> exists y z rs rt, jmdfwg06_rho_s_t dv s t p = Ok (y, z) /\
     diff_s jf_rho (fval s) (fval t) (fval p) rs /\ diff_t jf_rho (fval s) (fval t) (fval p) rt /\
     within y rs (dec 12 (-15)) /\ within z rt (dec 57 (-15))).
Proof. exact jf_float. Qed.
Print Assumptions C54_jmdfwg06.

(** specific volume is about 1e-3; salinities below zero are included, clamped as in the code *)
Theorem C54_gsw : forall dv : f64 -> f64 -> res f64, dv = sdiv \/ dv = adiv -> forall s t p,
  finite64 s -> finite64 t -> finite64 p -> fval s <= 42 -> -3 <= fval t <= 40 -> 0 <= fval p <= 10000 ->
  (exists y, gsw_specvol s t p = Ok y /\ within y (teos_v (fval s) (fval t) (fval p)) (dec 57 (-19))) /\
  (exists y r, gsw_specvol_p s t p = Ok y /\ diff_p teos_v (fval s) (fval t) (fval p) r /\ within y r (dec 43 (-24))) /\
  (0 < fval s -> exists y z rs rt, gsw_specvol_s_t dv s t p = Ok (y, z) /\
     diff_s teos_v (fval s) (fval t) (fval p) rs /\ diff_t teos_v (fval s) (fval t) (fval p) rt /\
     within y rs (dec 29 (-20)) /\ within z rt (dec 27 (-21))).
Proof. exact teos_float. Qed.
Print Assumptions C54_gsw.

(** pressures 2e-8 dbar apart give computed densities in the right order *)
Theorem C54_jmd95_resolves : forall dv : f64 -> f64 -> res f64, dv = sdiv \/ dv = adiv -> forall s t p p',
  finite64 s -> finite64 t -> finite64 p -> finite64 p' ->
  ocean (fval s) (fval t) (fval p) -> ocean (fval s) (fval t) (fval p') ->
  fval p + dec 2 (-8) <= fval p' ->
  exists y y', jmd95_rho dv s t p = Ok y /\ jmd95_rho dv s t p' = Ok y' /\ fval y < fval y'.
Proof. exact jm_resolves. Qed.
Print Assumptions C54_jmd95_resolves.

Theorem C54_jmdfwg06_resolves : forall dv : f64 -> f64 -> res f64, dv = sdiv \/ dv = adiv -> forall s t p p',
  finite64 s -> finite64 t -> finite64 p -> finite64 p' ->
  ocean (fval s) (fval t) (fval p) -> ocean (fval s) (fval t) (fval p') ->
  fval p + dec 2 (-8) <= fval p' ->
  exists y y', jmdfwg06_rho dv s t p = Ok y /\ jmdfwg06_rho dv s t p' = Ok y' /\ fval y < fval y'.
Proof. exact jf_resolves. Qed.
Print Assumptions C54_jmdfwg06_resolves.

Theorem C54_gsw_resolves : forall s t p p',
  finite64 s -> finite64 t -> finite64 p -> finite64 p' ->
  fval s <= 42 -> -3 <= fval t <= 40 -> 0 <= fval p <= 10000 -> 0 <= fval p' <= 10000 ->
  fval p + dec 2 (-8) <= fval p' ->
  exists y y', gsw_specvol s t p = Ok y /\ gsw_specvol s t p' = Ok y' /\ fval y' < fval y.
Proof. exact teos_resolves. Qed.
Print Assumptions C54_gsw_resolves.

(** the hypotheses are met by ordinary sea water: 34.7, 4.2 degrees, 2000.1 and 2000.10001 dbar *)
Example C54_witness : finite64 ex_s /\ finite64 ex_t /\ finite64 ex_p /\ finite64 ex_p' /\
  ocean (fval ex_s) (fval ex_t) (fval ex_p) /\ ocean (fval ex_s) (fval ex_t) (fval ex_p') /\
  0 < fval ex_s /\ fval ex_p + dec 2 (-8) <= fval ex_p'.
Proof. exact ex_vals. Qed.
Example C54_run : jmd95_rho sdiv ex_s ex_t ex_p = Ok (S754_finite false 4559067307094102 (-42)).
Proof. exact ex_jm. Qed.
