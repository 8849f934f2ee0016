(** * Boussinesq equations of state: what they should be *)
From Coq Require Import String Reals.
From Verif Require Import S_eos.
Open Scope R_scope.

(** hydrostatic pressure in dbar (10^4 Pa) under z metres of water of density rho_c *)
Definition hydrostatic (grav rho_c z : R) : R := grav * rho_c * z / 10000.

(** f as a function of depth *)
Definition at_depth (f : R -> R -> R -> R) (grav rho_c s t z : R) : R :=
  f s t (hydrostatic grav rho_c z).

(** the equations of state that have a name *)
Definition named (name : string) (f : R -> R -> R -> R) (dom : R -> R -> R -> Prop) : Prop :=
  (name = "jmd95"%string /\ f = jm_rho /\ dom = jm_dom) \/
  (name = "jmdfwg06"%string /\ f = jf_rho /\ dom = jf_dom) \/
  (name = "gsw"%string /\ f = teos_v /\ dom = fun _ _ _ => True).
