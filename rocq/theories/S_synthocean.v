(** * Specification of the synthetic ocean *)
From Coq Require Import ZArith Reals List.
From Verif Require Import Num XR Nd.
Import ListNotations.
Local Open Scope R_scope.

(** a lateral position on the wall of a dimension that is not periodic *)
Definition on_wall (wrap0 wrap1 : bool) (i j : nat) : Prop := wrap0 = false /\ i = O \/ wrap1 = false /\ j = O.

Definition finite (v : option xr) : Prop := exists r, v = Some (Fin r).

(** from 0 at the first of n points to 1 at the last; 0 if there is only one *)
Definition fraction (i n : nat) : R := INR i / INR (n - 1).

(** the surface temperature is not the same everywhere *)
Definition varied (ni nj : nat) (zonally_uniform : bool) : Prop := (2 <= nj)%nat \/ (2 <= ni)%nat /\ zonally_uniform = false.

(** ** The sphere of radius r, latitudes and longitudes in degrees *)
Definition radians (d : R) : R := d * PI / 180.
(** length of the parallel at a latitude, and area of the zone between two latitudes *)
Definition parallel (r y : R) : R := 2 * PI * r * cos (radians y).
Definition zone (r south north : R) : R := 2 * PI * r ^ 2 * (sin (radians north) - sin (radians south)).

Definition total (l : list R) : R := fold_right Rplus 0 l.
