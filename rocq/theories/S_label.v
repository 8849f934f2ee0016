(** * Specification vocabulary for the Veronis density *)
From Coq Require Import String Reals List.
From Coquelicot Require Import Coquelicot.
From Verif Require Import Num XR Res S_interp S_traj M_eos_base M_eostools.
Import ListNotations.
Local Open Scope R_scope.

(** A cast whose valid data are at levels 0..K-1 in S and in T, with pressures
    ps; below them P holds NaN or greater pressures. *)
Record profile (S T P : list xr) (K : nat) (ss ts ps : nat -> R) : Prop := mkprofile {
  pf_S : block P S 0 K ps ss;
  pf_T : block P T 0 K ps ts;
  pf_two : (1 < K)%nat;
  pf_deep : forall i v, (K <= i)%nat -> nth_error P i = Some v -> v = NaN \/ exists r, v = Fin r /\ ps (K - 1)%nat <= r
}.

(** gS, gT are the interpolants of the cast that [interp] names *)
Definition interpolants (interp : string) (K : nat) (ss ts ps : nat -> R) (gS gT : R -> R) : Prop :=
  (interp = "linear"%string /\ linear_fun K ps ss gS /\ linear_fun K ps ts gT) \/
  (interp = "pchip"%string /\ pchip_fun K ps ss gS /\ pchip_fun K ps ts gT).

Definition in_range (K : nat) (ps : nat -> R) (x : R) : Prop := ps 0%nat <= x <= ps (K - 1)%nat.

(** a real number within the range of the cast *)
Definition inside (K : nat) (ps : nat -> R) (p : xr) : Prop := exists r, p = Fin r /\ in_range K ps r.

(** [eos] stands for the functions h, h2 (after _process_eos): h gives the density d0 of the
    water at p0 moved to p_ref; h2 gives along the cast the partial derivatives f, g of density
    with respect to S and T, continuous functions of pressure *)
Record density (eos : arg) (grav rho_c : option xr) (K : nat) (ps : nat -> R) (gS gT : R -> R)
    (p0 p_ref d0 : R) (f g : R -> R) : Prop := mkdensity {
  dn_eos : exists h x, _process_eos sdiv eos grav rho_c true = Ok (F1 h, x)
    /\ h (Fin (gS p0)) (Fin (gT p0)) (Fin p_ref) = Ok (Fin d0);
  dn_eos_s_t : exists h2 x, _process_eos adiv eos grav rho_c true = Ok (x, Some (F2 h2))
    /\ forall x, in_range K ps x -> h2 (Fin (gS x)) (Fin (gT x)) (Fin x) = Ok (Fin (f x), Fin (g x));
  dn_f : forall x, continuity_pt f x;
  dn_g : forall x, continuity_pt g x
}.

(** vertical derivative of locally referenced potential density, f dS/dp + g dT/dp *)
Definition gradient (f g gS gT : R -> R) (x : R) : R := f x * Derive gS x + g x * Derive gT x.

(** between neighbouring levels y is twice differentiable (up to the levels) with second
    derivative at most M *)
Definition smooth_pieces (K : nat) (ps : nat -> R) (y : R -> R) (M : R) : Prop :=
  forall i, (S i < K)%nat -> exists q q1 q2 : R -> R, forall x, ps i <= x <= ps (S i) ->
    is_derive q x (q1 x) /\ is_derive q1 x (q2 x) /\ Rabs (q2 x) <= M
    /\ (ps i < x < ps (S i) -> y x = q x).

Definition spacing (K : nat) (ps : nat -> R) (W : R) : Prop :=
  forall i, (S i < K)%nat -> ps (S i) - ps i <= W.
