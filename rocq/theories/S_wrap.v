(** * Specification of periodic dimensions, and of the TEOS-10 library *)
From Coq Require Import String ZArith Bool List Reals.
From Verif Require Import M_wrap S_eos.
Import ListNotations.
Local Open Scope R_scope.

(** w gives names of dimensions: one, or a tuple or list of them *)
Definition given_names (w : wrap) (l : list string) : Prop :=
  (exists s, w = WStr s /\ l = [s]) \/ exists tuple, w = WSeq tuple (map WName l).

(** flags are true exactly for the dimensions that are named *)
Definition flags_of (names dims : list string) (flags : list bool) : Prop :=
  Forall2 (fun d b => b = true <-> In d names) dims flags.

(** What is assumed of the library: for ocean water that is not fresh, the density of TEOS-10 (the
    reciprocal of specific volume), and its partial derivatives, that with respect to pressure per Pa
    (10000 Pa are one dbar). *)
Definition teos_library (rho : R -> R -> R -> R) (derivs : R -> R -> R -> R * R * R) : Prop :=
  forall s t p, ocean s t p -> 0 < s -> rho s t p = / teos_v s t p
    /\ let '(rs, rt, rp) := derivs s t p in
       diff_s (fun s t p => / teos_v s t p) s t p rs /\ diff_t (fun s t p => / teos_v s t p) s t p rt
       /\ derivable_pt_lim (fun pa => / teos_v s t (pa / 10000)) (p * 10000) rp.
