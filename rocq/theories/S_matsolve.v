(** * Specification of the matrix problem of omega surfaces *)
From Coq Require Import List Reals.
From Verif Require Import Num XR Res M_ntp S_graph S_lib S_ntp.
Import ListNotations.
Local Open Scope R_scope.

(** ** Linear algebra: matrices and vectors are functions of indices below N *)
Definition apply (M : nat -> nat -> R) (cols : nat) (x : nat -> R) (i : nat) : R := nsum (fun j => M i j * x j) cols.

Definition positive_definite (N : nat) (M : nat -> nat -> R) : Prop :=
  (forall i j, (i < N)%nat -> (j < N)%nat -> M i j = M j i)
  /\ forall x, (exists i, (i < N)%nat /\ x i <> 0) -> 0 < nsum (fun i => x i * apply M N x i) N.

Definition full_column_rank (rows cols : nat) (M : nat -> nat -> R) : Prop :=
  forall x, (forall i, (i < rows)%nat -> apply M cols x i = 0) -> forall j, (j < cols)%nat -> x j = 0.

Definition residual (rows cols : nat) (M : nat -> nat -> R) (b x : nat -> R) : R :=
  nsum (fun i => (apply M cols x i - b i) * (apply M cols x i - b i)) rows.

(** entries of a matrix of extended reals *)
Definition real_matrix (rows cols : nat) (A : nat -> nat -> xr) (M : nat -> nat -> R) : Prop :=
  forall i j, (i < rows)%nat -> (j < cols)%nat -> A i j = Fin (M i j).

(** ** What the solvers of scipy are assumed to do (without rounding) *)

(** spsolve solves A x = r, for symmetric positive definite A *)
Definition exact_spsolve (spsolve : nat -> (nat -> nat -> xr) -> list xr -> list xr) : Prop :=
  forall N A M r, real_matrix N N A M -> positive_definite N M -> length r = N ->
    exists x, length x = N /\ spsolve N A (map Fin r) = map Fin x
      /\ forall i, (i < N)%nat -> apply M N (fun j => nth j x 0) i = nth i r 0.

(** lsqr minimises |A x - b|, for A of full column rank *)
Definition exact_lsqr (lsqr : nat -> nat -> (nat -> nat -> xr) -> list xr -> list xr) : Prop :=
  forall rows cols A M b, real_matrix rows cols A M -> full_column_rank rows cols M -> length b = rows ->
    exists x, length x = cols /\ lsqr rows cols A (map Fin b) = map Fin x
      /\ forall y, residual rows cols M (fun i => nth i b 0) (fun j => nth j x 0) <= residual rows cols M (fun i => nth i b 0) y.

(** ** The least squares problem on the region m *)
Definition mem (i : nat) (m : list nat) : bool := existsb (Nat.eqb i) m.

(** sum of weight * (phi_b - phi_a + error_ab)^2 over the edges (a, b) between nodes of m *)
Fixpoint objective (edges : list (nat * nat)) (weight : list R) (m : list nat) (err : nat -> nat -> R) (phi : nat -> R) : R :=
  match edges, weight with
  | (a, b) :: r, f :: q =>
      (if andb (mem a m) (mem b m) then f * ((phi b - phi a + err a b) * (phi b - phi a + err a b)) else 0)
      + objective r q m err phi
  | _, _ => 0
  end.

(** i and j are joined by an edge of positive weight *)
Definition linked (edges : list (nat * nat)) (weight : list R) (i j : nat) : Prop :=
  exists k e f, nth_error edges k = Some e /\ nth_error weight k = Some f /\ 0 < f /\ joins e i j.

(** m is a list of wet nodes, connected to mref within m; w gives the water on the surface *)
Record region (stp : list bottle) (edges : list (nat * nat)) (weight : list R) (m : list nat) (mref : nat)
  (w : nat -> R * R * R) : Prop := {
  r_edges : in_range edges (length stp);
  r_weights : length weight = length edges /\ Forall (fun f => 0 <= f) weight;
  r_nodes : NoDup m /\ In mref m;
  r_wet : forall i, In i m -> exists x, nth_error stp i = Some x /\ finite_bottle x (w i);
  r_connected : forall i, In i m -> reach (linked edges weight) (fun j => In j m) mref i }.

(** phi is the least squares solution that vanishes at mref, NaN outside m *)
Definition least_squares (n : nat) (m : list nat) (mref : nat) (J : (nat -> R) -> R) (phi : list xr) : Prop :=
  exists f : nat -> R,
    length phi = n
    /\ (forall i, In i m -> nth_error phi i = Some (Fin (f i)))
    /\ (forall i, (i < n)%nat -> ~ In i m -> nth_error phi i = Some NaN)
    /\ f mref = 0
    /\ (forall g, J f <= J g)
    /\ (forall g, J g = J f -> forall i, In i m -> g i - g mref = f i).
