(** * Specification of neutrality errors and their norms *)
From Coq Require Import List Reals.
From Verif Require Import Num XR Res M_ntp S_lib.
From Verif Require Export S_domain.
Import ListNotations.
Local Open Scope R_scope.

Notation bottle := (xr * xr * xr)%type.

(** the neutrality error from water (sa, ta, pa) to water (sb, tb, pb) *)
Definition water_error (rs rt : R -> R -> R -> R) (a b : R * R * R) : R :=
  let '(sa, ta, pa) := a in
  let '(sb, tb, pb) := b in
  let s := (sa + sb) / 2 in let t := (ta + tb) / 2 in let p := (pa + pb) / 2 in
  rs s t p * (sb - sa) + rt s t p * (tb - ta).

Definition finite_bottle (x : bottle) (r : R * R * R) : Prop :=
  let '(s, t, p) := r in x = (Fin s, Fin t, Fin p).
Definition dry (x : bottle) : Prop := fst (fst x) = NaN \/ snd (fst x) = NaN.

(** a distance given as a float or as an array means the real numbers l, one per edge *)
Definition distances (g : geom) (n : nat) (l : list R) : Prop :=
  length l = n /\ (g = Ar (map Fin l) \/ exists c, g = Sc (Fin c) /\ l = repeat c n).

(** area and error per distance of every edge on which the error e is a number *)
Fixpoint samples (e : list xr) (dist distperp : list R) : list (R * R) :=
  match e, dist, distperp with
  | Fin x :: e, d :: ds, w :: ws => (d * w, x / d) :: samples e ds ws
  | _ :: e, _ :: ds, _ :: ws => samples e ds ws
  | _, _, _ => []
  end.

(** mean of f over weighted samples *)
Definition total (l : list (R * R)) : R := Rsum (map fst l).
Definition wmean (f : R -> R) (l : list (R * R)) : R := Rsum (map (fun s => fst s * f (snd s)) l) / total l.

Definition number_or_nan (x : xr) : Prop := x = NaN \/ exists r, x = Fin r.
Definition swap (e : nat * nat) : nat * nat := (snd e, fst e).

(** a grid given edge by edge: the edge with its dist and distperp *)
Definition grid_of (L : list ((nat * nat) * (xr * xr))) : gridarg :=
  GDict (Some (map fst L)) (Some (Ar (map (fun x => fst (snd x)) L))) (Some (Ar (map (fun x => snd (snd x)) L))).
