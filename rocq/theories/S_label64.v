(** * Specification vocabulary for the Veronis density in binary64 *)
From Coq Require Import String ZArith Reals List.
From Verif Require Import Num XR SF S_eos S_float S_domain S_vert64 S_label.
Local Open Scope string_scope.
Local Open Scope R_scope.

(** how much salinity and temperature vary over the levels of a cast: the sum of their absolute differences from each level to the next *)
Definition variation (K : nat) (ss ts : nat -> R) : R :=
  fold_right Rplus 0 (map (fun i => Rabs (ss (S i) - ss i) + Rabs (ts (S i) - ts i)) (seq 0 (K - 1))).

(** for each name: the error of the integral per variation of salinity and temperature, c for the partial derivatives and r for
    each rounding *)
Inductive label64 : string -> R -> R -> Prop :=
| l64_jmd95 : label64 "jmd95" (dec 5 (-13)) (dec 6 (-16))
| l64_jmdfwg06 : label64 "jmdfwg06" (dec 7 (-13)) (dec 3 (-15))
| l64_gsw : label64 "gsw" (dec 4 (-18)) (dec 6 (-21)).

(** A cast of waters of the range D (salinities not zero) with levels at least 0.001 and at most W apart: numbers S, T and P mean S', T'
    and P', which have K levels of salinities ss, temperatures ts and pressures ps *)
Record cast64 (D : domain) (S T P : list f64) (S' T' P' : list xr) (K : nat) (ss ts ps : nat -> R) (W : R) : Prop := {
  c64_S : holds_all S S';
  c64_T : holds_all T T';
  c64_P : holds_all P P';
  c64_profile : profile S' T' P' K ss ts ps;
  c64_water : forall i, (i < K)%nat -> dS D (ss i) /\ 0 < ss i /\ dT D (ts i) /\ dP D (ps i);
  c64_apart : forall i, (Datatypes.S i < K)%nat -> / 1000 <= ps (Datatypes.S i) - ps i <= W;
  c64_count : INR K <= powerRZ 2 40
}.

(** for each name and least salinity: how much the partial derivatives bend along a straight line in salinity, temperature and pressure, a bound
    on the sum of their second derivatives per square of the steepness of the line (see [steep]) *)
Inductive bend64 : string -> R -> R -> Prop :=
| b64_jmd95 : bend64 "jmd95" (/ 1000) 376
| b64_jmd95_1 : bend64 "jmd95" 1 (dec 57 (-3))
| b64_jmd95_30 : bend64 "jmd95" 30 (dec 36 (-3))
| b64_jmdfwg06 : bend64 "jmdfwg06" (/ 1000) 290
| b64_jmdfwg06_1 : bend64 "jmdfwg06" 1 (dec 72 (-3))
| b64_jmdfwg06_30 : bend64 "jmdfwg06" 30 (dec 53 (-3))
| b64_gsw : bend64 "gsw" 0 (dec 34 (-8))
| b64_gsw_30 : bend64 "gsw" 30 (dec 72 (-9)).

(** salinity and temperature change by at most L per unit of the vertical coordinate *)
Definition steep (K : nat) (ss ts ps : nat -> R) (L : R) : Prop :=
  / 100 <= L /\ forall i, (S i < K)%nat ->
    Rabs (ss (S i) - ss i) <= L * (ps (S i) - ps i) /\ Rabs (ts (S i) - ts i) <= L * (ps (S i) - ps i).
