(** * Specification vocabulary for the entry points run in binary64 *)
From Coq Require Import ZArith Reals List String SpecFloat.
From Verif Require Import Num XR SF S_eos S_float S_named S_vert64 M_lib M_surfaces.
Import ListNotations.
Local Open Scope R_scope.

(** for each name: the least salinity considered, the error of salinities and temperatures, a bound on the errors of differences with a constant,
    and a bound on the values *)
Inductive limits64 : string -> R -> R -> R -> R -> Prop :=
| lim_jmd95 e d : margin64 "jmd95" e d -> limits64 "jmd95" (/ 1000) e d (dec 1100 0)
| lim_jmdfwg06 e d : margin64 "jmdfwg06" e d -> limits64 "jmdfwg06" (/ 1000) e d (dec 1600 0)
| lim_gsw e d : margin64 "gsw" e d -> limits64 "gsw" 0 e d (dec 15 (-4)).

(** The unit of the vertical coordinate is the pressure zp, and the coordinate is at most pm: pressures up to
    10000 dbar, or, if both gravity and a reference density are given, depths down to such a pressure. *)
Definition coordinate64 (grav rho_c : option f64) (zp pm : R) : Prop :=
  match grav, rho_c with
  | Some g, Some r => finite64 g /\ finite64 r /\ 1 <= fval g <= 1000 /\ 1 <= fval r <= 100000
      /\ zp = fval g * fval r / 10000 /\ / 2 <= zp <= 3 / 2 /\ 0 <= pm <= 10000 /\ pm * zp <= 10000
  | _, _ => zp = 1 /\ pm = 10000
  end.

(** an integer or a tuple of integers *)
Definition pin_tuple64 (pin : @pinarg f64) (t : list Z) : Prop :=
  pin = APin (PinTuple t) \/ exists z, t = [z] /\ pin = APin (PinInt z).
