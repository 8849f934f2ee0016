(** * Specification vocabulary for the named equations of state *)
From Coq Require Import String Reals Lra.
From Verif Require Import XR Res S_eos S_domain.
Local Open Scope R_scope.

(** what each name computes: specific volume, or density *)
Inductive named_eos : string -> (R -> R -> R -> R) -> Prop :=
| n_gsw : named_eos "gsw" teos_v
| n_jmd95 : named_eos "jmd95" jm_rho
| n_jmdfwg06 : named_eos "jmdfwg06" jf_rho.

(** a function of pressure as a function of the vertical coordinate, whose unit is the pressure zp *)
Definition at_depth (zp : R) (rho : R -> R -> R -> R) (s t z : R) : R := rho s t (z * zp).

Lemma pressures_interval zp : interval (fun z => 0 <= z * zp <= 10000).
Proof.
  intros x y z Hx Hy [H1 H2]. destruct (Rle_dec 0 zp) as [H|H].
  - pose proof (Rmult_le_compat_r zp _ _ H H1). pose proof (Rmult_le_compat_r zp _ _ H H2). lra.
  - apply Rnot_le_lt, Rlt_le in H.
    pose proof (Rmult_le_compat_neg_l zp _ _ H H1). pose proof (Rmult_le_compat_neg_l zp _ _ H H2). lra.
Qed.
(** the oceanographic range: salinity up to 42, temperature from -3 to 40, pressure up to 10000 dbar *)
Definition seas (zp : R) : domain :=
  mkdomain (upto 0 42) (upto (-3) 40) (fun z => 0 <= z * zp <= 10000)
    (upto_interval _ _) (upto_interval _ _) (pressures_interval zp).
