(** * Specification vocabulary for the mixed layer *)
From Coq Require Import String ZArith Reals List.
From Verif Require Import XR Res S_eos S_interp S_traj.
Import ListNotations.
Local Open Scope R_scope.

(** [f] computes density, or specific volume if its value for a sample of sea water is at most
    1.  sig i is the potential density, referenced to ref, of the water at the levels k..K-1;
    at other levels f does not fail, and is NaN where S is. *)
Record pot_density (f : xr -> xr -> xr -> res xr) (ref : xr) (S T : list xr) (k K : nat) (sig : nat -> R) : Prop := mkpd {
  pd_sample : exists e, f (Fin (69 / 2)) (Fin 3) (Fin 1000) = Ok (Fin e)
    /\ forall i s t, (k <= i < K)%nat -> nth_error S i = Some s -> nth_error T i = Some t ->
         exists r, f s t ref = Ok (Fin r) /\ (1 < e /\ sig i = r \/ e <= 1 /\ r <> 0 /\ sig i = 1 / r);
  pd_other : forall i s t, nth_error S i = Some s -> nth_error T i = Some t ->
    exists v, f s t ref = Ok v /\ (s = NaN -> v = NaN)
}.

(** potential density excess over the bottle at level b *)
Definition excess (sig : nat -> R) (b i : nat) : R := sig i - sig b.

(** p solves the linear interpolation problem between levels i and i+1 for the value x of y *)
Definition between (ps ys : nat -> R) (i : nat) (x p : R) : Prop :=
  (p - ps i) * (ys (S i) - ys i) = (x - ys i) * (ps (S i) - ps i).

(** not an infinity *)
Definition not_inf (t : xr) : Prop := t = NaN \/ exists r, t = Fin r.

(** the density that each name stands for *)
Inductive density : string -> (R -> R -> R -> R) -> Prop :=
| d_gsw : density "gsw" (fun s t p => 1 / teos_v s t p)
| d_jmd95 : density "jmd95" jm_rho
| d_jmdfwg06 : density "jmdfwg06" jf_rho.

(** pressure of depth 1: the factor that turns the vertical coordinate into pressure *)
Definition pressure_factor (grav rho_c : option xr) (zp : R) : Prop :=
  (grav = None \/ rho_c = None) /\ zp = 1
  \/ exists g r, grav = Some (Fin g) /\ rho_c = Some (Fin r) /\ zp = g * r / 10000.

(** columns of sea water: each level is missing, or within the oceanographic range *)
Definition sea_water (S T : list xr) (p : R) : Prop :=
  forall i s t, nth_error S i = Some s -> nth_error T i = Some t ->
    s = NaN /\ not_inf t \/ exists a b, s = Fin a /\ t = Fin b /\ ocean a b p.

(** the Python index b, possibly negative but not -1, means element i of n *)
Definition py_index (n : nat) (b : Z) (i : nat) : Prop :=
  (i < n)%nat /\ (b = Z.of_nat i \/ (b <> -1)%Z /\ b = (Z.of_nat i - Z.of_nat n)%Z).

(** the cast at horizontal position h1, h2 of an array with n levels on the axis between *)
Definition cast_at {F} (x : list nat -> option F) (n : nat) (h1 h2 : list nat) (l : list F) : Prop :=
  length l = n /\ forall k, (k < n)%nat -> nth_error l k = x (h1 ++ k :: h2).
