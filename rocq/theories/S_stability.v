(** * Specification vocabulary for static stability *)
From Coq Require Import ZArith Reals List.
From Verif Require Import Num XR Res Nd S_lib S_traj S_mixed_layer M_stability.
Import ListNotations.
Local Open Scope R_scope.

(** there are exactly m indices with the property *)
Definition number_of {A} (P : A -> Prop) (m : nat) : Prop :=
  exists l : list A, NoDup l /\ length l = m /\ forall x, In x l <-> P x.

(** density is rho where the three arguments are known, and missing if one is missing *)
Definition sea_eos (eos : xr -> xr -> xr -> res xr) (rho : R -> R -> R -> R) : Prop :=
  eos_real eos rho /\ forall s t p, s = NaN \/ t = NaN \/ p = NaN -> eos s t p = Ok NaN.

(** the bottle at level k of the cast h1, h2 is at least as dense as the next one below it, both
    moved to their mean pressure; either may not be missing *)
Definition wrong_order (rho : R -> R -> R -> R) (S T P : list nat -> option xr) (h1 h2 : list nat) (k : nat) : Prop :=
  exists s t p s' t' p',
    S (h1 ++ k :: h2) = Some (Fin s) /\ T (h1 ++ k :: h2) = Some (Fin t) /\ P (h1 ++ k :: h2) = Some (Fin p)
    /\ S (h1 ++ (k + 1)%nat :: h2) = Some (Fin s') /\ T (h1 ++ (k + 1)%nat :: h2) = Some (Fin t') /\ P (h1 ++ (k + 1)%nat :: h2) = Some (Fin p')
    /\ rho s' t' ((p + p') / 2) <= rho s t ((p + p') / 2).

(** every element of the array is a number or missing *)
Definition no_inf (x : nd xr) : Prop := forall v, In v (elems x) -> not_inf v.

(** S is known first at the levels k..K-1, where T and P are also known *)
Record profile (S T P : list xr) (k K : nat) (ss ts ps : nat -> R) : Prop := mkprof {
  pr_lenT : length T = length S;
  pr_lenP : length P = length S;
  pr_kK : (k < K <= length S)%nat;
  pr_S : forall i, (k <= i < K)%nat -> nth_error S i = Some (Fin (ss i));
  pr_T : forall i, (k <= i < K)%nat -> nth_error T i = Some (Fin (ts i));
  pr_P : forall i, (k <= i < K)%nat -> nth_error P i = Some (Fin (ps i));
  pr_inc : forall i, (k <= i)%nat -> (i + 1 < K)%nat -> ps i < ps (i + 1)%nat;
  pr_pre : forall i, (i < k)%nat -> nth_error S i = Some NaN;
  pr_post : (K < length S)%nat -> nth_error S K = Some NaN
}.

Definition all_missing (S : list xr) : Prop := forall v, In v S -> v = NaN.

(** the known levels of S are consecutive *)
Definition no_gap (S : list xr) : Prop :=
  forall i j l x y z, (i < l < j)%nat -> nth_error S i = Some x -> nth_error S j = Some y -> nth_error S l = Some z ->
    x <> NaN -> y <> NaN -> z <> NaN.

(** nothing known, or a profile *)
Definition any_profile (S T P : list xr) : Prop := all_missing S \/ exists k K ss ts ps, profile S T P k K ss ts ps.

(** vertical gradient of locally referenced potential density between levels i and i+1 *)
Definition lrpd_grad (rho : R -> R -> R -> R) (ss ts ps : nat -> R) (i : nat) : R :=
  let pm := (ps i + ps (i + 1)%nat) / 2 in
  (rho (ss (i + 1)%nat) (ts (i + 1)%nat) pm - rho (ss i) (ts i) pm) / (ps (i + 1)%nat - ps i).

Definition stable (rho : R -> R -> R -> R) (m : nat -> R) (k K : nat) (ss ts ps : nat -> R) : Prop :=
  forall i, (k <= i)%nat -> (i + 1 < K)%nat -> m i <= lrpd_grad rho ss ts ps i.

(** weighted squared distance between two casts *)
Fixpoint wdist (w : R) (ss ts ss' ts' : nat -> R) (k n : nat) : R :=
  match n with
  | O => 0
  | S n => (w * (ss' k - ss k) * (ss' k - ss k) + (ts' k - ts k) * (ts' k - ts k)) + wdist w ss ts ss' ts' (k + 1) n
  end.

(** S', T' is the cast S, T after stabilisation to the thresholds m within eps; if [best], no
    cast that meets the thresholds is nearer *)
Definition stabilized (rho : R -> R -> R -> R) (m : nat -> R) (eps w : R) (best : Prop) (S T P S' T' : list xr) : Prop :=
  (all_missing S -> S' = S /\ T' = T)
  /\ forall k K ss ts ps, profile S T P k K ss ts ps ->
       (stable rho m k K ss ts ps -> S' = S /\ T' = T)
       /\ (~ stable rho m k K ss ts ps ->
           exists ss' ts', profile S' T' P k K ss' ts' ps
             /\ stable rho (fun i => m i - eps) k K ss' ts' ps
             /\ (best -> forall ss2 ts2, stable rho m k K ss2 ts2 ps -> wdist w ss ts ss' ts' k (K - k) <= wdist w ss ts ss2 ts2 k (K - k))
             /\ length S' = length S
             /\ forall i, (i < k \/ K <= i)%nat -> nth_error S' i = nth_error S i /\ nth_error T' i = nth_error T i).

(** the optimiser, when it reports success, returns numbers that meet the constraints within eps *)
Definition feasible (eps : R)
    (minimize : (xr -> list xr -> xr) -> list xr -> xr -> (xr -> list xr -> list xr) -> (list xr -> res (list xr)) -> res (bool * list xr)) : Prop :=
  forall f x0 w j con x, minimize f x0 w j con = Ok (true, x) ->
    length x = length x0 /\ (exists xs, x = map Fin xs)
    /\ exists g, con x = Ok g /\ forall y, In y g -> exists r, y = Fin r /\ - eps <= r.

(** what the optimiser is asked to keep non-negative: how much the gradients exceed the thresholds
    when the levels k..K-1 of S and then T are changed by the numbers xs *)
Definition constraint_of (rho : R -> R -> R -> R) (m : nat -> R) (k K : nat) (ss ts ps : nat -> R) (c : list xr -> res (list xr)) : Prop :=
  forall xs, length xs = (2 * (K - k))%nat ->
    c (map Fin xs) = Ok (map (fun i => Fin (lrpd_grad rho (fun j => ss j + nth (j - k) xs 0) (fun j => ts j + nth (K - k + (j - k)) xs 0) ps i - m i))
                             (seq k (K - k - 1))).

(** the thresholds: one number, or one for each pair of the n levels *)
Definition thresholds (a : @scalar_or_array xr) (n : nat) (m : nat -> R) : Prop :=
  match a with
  | Scalar x => forall i, x = Fin (m i)
  | Vector l => length l = (n - 1)%nat /\ forall i, (i < n - 1)%nat -> nth_error l i = Some (Fin (m i))
  end.

(** the optimiser, when it reports success, returns a point at least as good as any that meets the constraints *)
Definition optimal
    (minimize : (xr -> list xr -> xr) -> list xr -> xr -> (xr -> list xr -> list xr) -> (list xr -> res (list xr)) -> res (bool * list xr)) : Prop :=
  forall f x0 w j con x, minimize f x0 w j con = Ok (true, x) ->
    forall ys g a b, length ys = length x0 -> con (map Fin ys) = Ok g -> (forall y, In y g -> exists r, y = Fin r /\ 0 <= r) ->
      f w x = Fin a -> f w (map Fin ys) = Fin b -> a <= b.

(** the interpolants of S and T at the bottle at level k of the cast have slopes, known to the
    equation of state, with which density decreases downwards *)
Definition falling (interp_two : xr -> list xr -> list xr -> list xr -> nat -> res (xr * xr)) (eos_s_t : xr -> xr -> xr -> res (xr * xr))
    (s t p : list xr) (k : nat) : Prop :=
  exists sk tk pk ds dt rs rt, nth_error s k = Some sk /\ nth_error t k = Some tk /\ nth_error p k = Some pk
    /\ interp_two pk p s t 1%nat = Ok (Fin ds, Fin dt) /\ eos_s_t sk tk pk = Ok (Fin rs, Fin rt) /\ rs * ds + rt * dt < 0.

(** ** Arrays in memory *)

(** a holds the elements of x *)
Definition represents {F} (a : @ndarray F) (x : nd F) : Prop :=
  dimens a = shape x /\ length (strides a) = length (dimens a) /\ forall ix, valid (shape x) ix -> value a ix = at_ x ix.

(** strides of an array in row-major (C) order *)
Fixpoint c_strides (sh : list nat) : list Z :=
  match sh with [] => [] | _ :: r => Z.of_nat (prod r) :: c_strides r end.
