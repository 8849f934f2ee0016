(** * Properties C55-C56: root finding in binary64 *)
From Coq Require Import ZArith Reals SpecFloat.
From Verif Require Import Num SF Res M_fzero S_float S_fzero S_fzero64 P_brent64 P_gtb64 P_fzero64 Ex_fzero64.
Open Scope R_scope.

(** ** C55  [brent], rounding errors included.
    No exception, no overflow, no endless loop, whatever the interpolation steps compute. *)
Theorem C55_brent_binary64 : forall (f : f64 -> res f64) (a b t fa fb : f64),
  finite64 a -> finite64 b -> finite64 t -> ordinary (fval a) -> ordinary (fval b) -> tolerance_ok (fval t) -> fval a <= fval b ->
  defined_on f a b -> f a = Ok fa -> f b = Ok fb -> fval fa * fval fb <= 0 ->
  exists x, (forall fuel, 5 * (fval b - fval a) / fval t + 1 <= INR fuel -> brent f fuel a b t = Ok x) /\ found f a b t x.
Proof. exact brent64. Qed.
Print Assumptions C55_brent_binary64.

(** the computed function need only be within delta of a continuous function g *)
Theorem C55_root_of_real_function : forall (f : f64 -> res f64) (g : R -> R) (delta : R) (a b t x : f64),
  0 < fval t -> 0 <= delta -> continuous_on g (fval a) (fval b) ->
  (forall z y, between64 a b z -> f z = Ok y -> Rabs (fval y - g (fval z)) <= delta) -> found f a b t x ->
  exists r, fval a <= r <= fval b /\ Rabs (g r) <= delta /\ Rabs (fval x - r) <= brent_tol (fval x) (fval t) * (1 + powerRZ 2 (-50)).
Proof. exact found_root. Qed.
Print Assumptions C55_root_of_real_function.

Theorem C55_no_sign_change : forall (f : f64 -> res f64) (a b t fa fb : f64) (fuel : nat),
  finite64 fa -> finite64 fb -> f a = Ok fa -> f b = Ok fb -> powerRZ 2 (-1000) <= fval fa * fval fb ->
  brent f fuel a b t = Ok nan.
Proof. exact brent64_nan. Qed.
Print Assumptions C55_no_sign_change.

(** ** C56  [guess_to_bounds] and [brent_guess] *)
Theorem C56_guess_to_bounds_binary64 : forall (f : f64 -> res f64) (x A B : f64),
  finite64 x -> finite64 A -> finite64 B -> ordinary (fval A) -> ordinary (fval B) -> fval A <= fval B ->
  apart (fval A) (Rmin (Rmax (fval x) (fval A)) (fval B)) -> apart (Rmin (Rmax (fval x) (fval A)) (fval B)) (fval B) ->
  defined_on f A B ->
  exists r, (forall fuel, (13 <= fuel)%nat -> guess_to_bounds f fuel x A B = Ok r) /\
    ((r = (A, A) /\ exists v, f A = Ok v /\ fval v = 0) \/
     (r = (B, B) /\ exists v, f B = Ok v /\ fval v = 0) \/
     (exists a b fa fb, r = (a, b) /\ between64 A B a /\ between64 A B b /\
        fval a <= Rmin (Rmax (fval x) (fval A)) (fval B) <= fval b /\
        f a = Ok fa /\ f b = Ok fb /\ opposite (fval fa) (fval fb)) \/
     (r = (nan, nan) /\ no_change f A B)).
Proof. exact gtb64. Qed.
Print Assumptions C56_guess_to_bounds_binary64.

Theorem C56_brent_guess_binary64 : forall (f : f64 -> res f64) (x A B t : f64),
  finite64 x -> finite64 A -> finite64 B -> finite64 t ->
  ordinary (fval A) -> ordinary (fval B) -> tolerance_ok (fval t) -> fval A <= fval B ->
  apart (fval A) (Rmin (Rmax (fval x) (fval A)) (fval B)) -> apart (Rmin (Rmax (fval x) (fval A)) (fval B)) (fval B) ->
  defined_on f A B -> forall fg fb, (13 <= fg)%nat -> 5 * (fval B - fval A) / fval t + 1 <= INR fb ->
  exists r, brent_guess f fg fb x A B t = Ok r /\ (found f A B t r \/ (r = nan /\ no_change f A B)).
Proof. exact brent_guess64. Qed.
Print Assumptions C56_brent_guess_binary64.

(** Without the two [apart] hypotheses the search can run for ever: a guess inside the range, fifty
    times the smallest positive number away from its lower end. *)
Theorem C56_always_ends_refuted : exists (f : f64 -> res f64) (x A B : f64), finite64 x /\ finite64 A /\ finite64 B /\
  ordinary (fval A) /\ ordinary (fval B) /\ fval A < fval x < fval B /\ defined_on f A B /\
  forall fuel, guess_to_bounds f fuel x A B = Err OutOfFuel.
Proof. exact gtb64_refuted. Qed.
Print Assumptions C56_always_ends_refuted.

(** the hypotheses are met by x^2 - 2 between 0 and 2, tolerance 2^-20, guess 3 *)
Example C56_witness : finite64 (lit 0 0 : f64) /\ finite64 (lit 2 0 : f64) /\ finite64 ex_tol /\ finite64 ex_guess /\
  ordinary (fval (lit 0 0 : f64)) /\ ordinary (fval (lit 2 0 : f64)) /\ tolerance_ok (fval ex_tol) /\
  fval (lit 0 0 : f64) <= fval (lit 2 0 : f64) /\ defined_on sq2 (lit 0 0 : f64) (lit 2 0 : f64) /\
  apart (fval (lit 0 0 : f64)) (Rmin (Rmax (fval ex_guess) (fval (lit 0 0 : f64))) (fval (lit 2 0 : f64))) /\
  apart (Rmin (Rmax (fval ex_guess) (fval (lit 0 0 : f64))) (fval (lit 2 0 : f64))) (fval (lit 2 0 : f64)).
Proof. exact sq2_hyps. Qed.
Example C55_run : brent sq2 100 (lit 0 0) (lit 2 0) ex_tol = Ok sq2_run.
Proof. exact sq2_runs. Qed.
Example C55_accurate : Rabs (fval sq2_run - sqrt 2) <= / 100000.
Proof. exact sq2_accurate. Qed.
Example C56_run : brent_guess sq2 13 100 ex_guess (lit 0 0) (lit 2 0) ex_tol = Ok sq2_guess_run.
Proof. exact sq2_guess_runs. Qed.
