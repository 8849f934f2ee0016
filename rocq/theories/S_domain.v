(** * Specification vocabulary for equations of state and the water they are used on *)
From Coq Require Import Reals.
From Verif Require Import XR Res.
Local Open Scope R_scope.

(** [eos] computes the real function rho on real arguments *)
Definition eos_real (eos : xr -> xr -> xr -> res xr) (rho : R -> R -> R -> R) : Prop :=
  forall s t p, eos (Fin s) (Fin t) (Fin p) = Ok (Fin (rho s t p)).

(** Ranges of salinity, temperature and pressure on which an equation of state
    is defined: whole intervals, so that anything between two such values is another *)
Definition interval (C : R -> Prop) : Prop := forall x y z, C x -> C y -> x <= z <= y -> C z.
Record domain := mkdomain { dS : R -> Prop; dT : R -> Prop; dP : R -> Prop;
  dS_interval : interval dS; dT_interval : interval dT; dP_interval : interval dP }.
(** no restriction *)
Definition everywhere : domain := mkdomain (fun _ => True) (fun _ => True) (fun _ => True)
  (fun _ _ _ _ _ _ => I) (fun _ _ _ _ _ _ => I) (fun _ _ _ _ _ _ => I).
(** from x to y *)
Definition upto (x y : R) (z : R) : Prop := x <= z <= y.
Definition upto_interval x y : interval (upto x y) :=
  fun a b z Ha Hb Hz => conj (Rle_trans _ _ _ (proj1 Ha) (proj1 Hz)) (Rle_trans _ _ _ (proj2 Hz) (proj2 Hb)).
Definition box (s s' t t' p p' : R) : domain := mkdomain (upto s s') (upto t t') (upto p p')
  (upto_interval _ _) (upto_interval _ _) (upto_interval _ _).
(** [eos] computes the real function rho on the ranges D *)
Definition eos_on (D : domain) (eos : xr -> xr -> xr -> res xr) (rho : R -> R -> R -> R) : Prop :=
  forall s t p, dS D s -> dT D t -> dP D p -> eos (Fin s) (Fin t) (Fin p) = Ok (Fin (rho s t p)).

(** eos_s_t computes two real functions, the partial derivatives *)
Definition eos_s_t_on (D : domain) (eos_s_t : xr -> xr -> xr -> res (xr * xr)) (rs rt : R -> R -> R -> R) : Prop :=
  forall s t p, dS D s -> dT D t -> dP D p -> eos_s_t (Fin s) (Fin t) (Fin p) = Ok (Fin (rs s t p), Fin (rt s t p)).
Definition eos_s_t_real (eos_s_t : xr -> xr -> xr -> res (xr * xr)) (rs rt : R -> R -> R -> R) : Prop :=
  forall s t p, eos_s_t (Fin s) (Fin t) (Fin p) = Ok (Fin (rs s t p), Fin (rt s t p)).
(** it does not raise on missing data *)
Definition missing (b : xr * xr * xr) : Prop := let '(s, t, p) := b in s = NaN \/ t = NaN \/ p = NaN.
Definition nan_safe (eos_s_t : xr -> xr -> xr -> res (xr * xr)) : Prop :=
  forall s t p, missing (s, t, p) -> exists r, eos_s_t s t p = Ok r.

(** the water is in the ranges D *)
Definition water_in (D : domain) (w : R * R * R) : Prop := let '(s, t, p) := w in dS D s /\ dT D t /\ dP D p.
(** the bottle is water in the ranges D *)
Definition bottle_in (D : domain) (b : xr * xr * xr) : Prop :=
  exists s t p, b = (Fin s, Fin t, Fin p) /\ dS D s /\ dT D t /\ dP D p.
