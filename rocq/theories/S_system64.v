(** * Specification vocabulary for the linear problems of omega surfaces set up in binary64 *)
From Coq Require Import ZArith Reals List Bool SpecFloat.
From Verif Require Import Num XR SF M_ntp S_lib S_float S_matsolve S_ntp S_ntp64 S_omega.
Import ListNotations.
Local Open Scope R_scope.

(** an edge between two nodes, with its weight *)
Definition wedge : Type := ((nat * nat) * R)%type.

(** the edges between nodes of m, in the order given *)
Definition inner (m : list nat) (edges : list (nat * nat)) (weight : list R) : list wedge :=
  filter (fun x => mem (fst (fst x)) m && mem (snd (fst x)) m) (combine edges weight).

Definition ind (i j : nat) : R := if Nat.eqb i j then 1 else 0.
(** how often node i is an end of an edge, and +1 at its start, -1 at its end *)
Definition ends (i : nat) (x : wedge) : R := ind i (fst (fst x)) + ind i (snd (fst x)).
Definition sign_at (i : nat) (x : wedge) : R := ind i (fst (fst x)) - ind i (snd (fst x)).

(** number of edge ends at node i, and the sum of weights there *)
Definition valency (i : nat) (l : list wedge) : R := Rsum (map (ends i) l).
Definition strength (i : nat) (l : list wedge) : R := Rsum (map (fun x => ends i x * snd x) l).

(** the normal equations of [objective] with the value at the pin kept at 0: matrix and right hand side, where edges have errors [err] *)
Definition laplacian (pin : nat) (l : list wedge) (i j : nat) : R :=
  Rsum (map (fun x => snd x * sign_at i x * sign_at j x) l) + ind i pin * ind j pin.
Definition divergence (err : nat -> nat -> R) (l : list wedge) (i : nat) : R :=
  Rsum (map (fun x => snd x * sign_at i x * err (fst (fst x)) (snd (fst x))) l).
Definition divergence_abs (err : nat -> nat -> R) (l : list wedge) (i : nat) : R :=
  Rsum (map (fun x => snd x * ends i x * Rabs (err (fst (fst x)) (snd (fst x)))) l).

(** A and r are the Poisson problem for the nodes m; [err] are the errors along edges, where there are any, and b bounds the
    error of these. *)
Definition poisson64 (b : R) (l : list wedge) (err : nat -> nat -> option R) (m : list nat) (pin : nat) (A : nat -> nat -> f64) (r : list f64) : Prop :=
  (forall k q i j, nth_error m k = Some i -> nth_error m q = Some j ->
     S_float.within (A k q) (laplacian pin l i j) ((valency i l + 3) * powerRZ 2 (-51) * (strength i l + ind i pin * ind j pin)))
  /\ length r = length m
  /\ forall k i d, nth_error m k = Some i -> nth_error r k = Some d ->
       (forall v : nat -> nat -> R, (forall x, In x l -> ends i x <> 0 -> err (fst (fst x)) (snd (fst x)) = Some (v (fst (fst x)) (snd (fst x)))) ->
          S_float.within d (divergence v l i) (2 * b * strength i l + (valency i l + 3) * powerRZ 2 (-51) * divergence_abs v l i))
       /\ ((exists x, In x l /\ ends i x <> 0 /\ err (fst (fst x)) (snd (fst x)) = None) -> d = nan).

(** A and r are the gradient problem: a row for each edge, scaled by the square root of its weight, and a last row for the pin *)
Definition gradient64 (b : R) (l : list wedge) (err : nat -> nat -> option R) (m : list nat) (pin : nat) (A : nat -> nat -> f64) (r : list f64) : Prop :=
  (forall k q x j, nth_error l k = Some x -> nth_error m q = Some j ->
     S_float.within (A k q) (- (sqrt (snd x) * sign_at j x)) (powerRZ 2 (-50) * sqrt (snd x) * ends j x))
  /\ (forall q j, nth_error m q = Some j -> S_float.within (A (length l) q) (ind j pin / 100) (powerRZ 2 (-58) * ind j pin))
  /\ length r = S (length l)
  /\ (forall k x d, nth_error l k = Some x -> nth_error r k = Some d ->
        match err (fst (fst x)) (snd (fst x)) with
        | Some e => S_float.within d (- (sqrt (snd x) * e)) (sqrt (snd x) * (2 * b + powerRZ 2 (-50) * Rabs e))
        | None => d = nan
        end)
  /\ nth_error r (length l) = Some zero.

(** y has n entries: the k-th node i of m has the value v k i, other entries are NaN *)
Definition placed (n : nat) (m : list nat) (v : nat -> nat -> option f64) (y : list f64) : Prop :=
  length y = n /\ (forall k i, nth_error m k = Some i -> nth_error y i = v k i) /\ forall i, (i < n)%nat -> ~ In i m -> nth_error y i = Some nan.

(** the elementwise square root of a number or an array *)
Definition geom_sqrt (g : @geom f64) : geom := match g with Sc x => Sc (fsqrt x) | Ar l => Ar (map fsqrt l) end.
