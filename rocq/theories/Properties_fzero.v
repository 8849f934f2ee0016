(** * Properties C01-C05: root finding (fzero.py) *)
From Coq Require Import ZArith Bool Reals Lra Lia List.
From Verif Require Import Num XR SF Res XRlemmas M_fzero S_fzero P_fzero Ex_fzero.
Local Open Scope R_scope.

(** ** C01  [brent] is sound and total on every bracket.
    [f] may do anything outside [a,b] (even raise); it is read as the real
    function [g] on [a,b].  [Ok] excludes ZeroDivisionError and exhausted fuel. *)
Theorem C01_brent_sound_total :
  forall (f : xr -> res xr) (g : R -> R) (a b t : R),
    a <= b -> 0 < t ->
    (forall x, a <= x <= b -> f (Fin x) = Ok (Fin (g x))) ->
    g a * g b <= 0 ->
    exists x,
      (forall fuel, 2 * (b - a) / t + 1 <= INR fuel ->
         brent f fuel (Fin a) (Fin b) (Fin t) = Ok (Fin x))
      /\ a <= x <= b
      /\ near_root g a b x (2 * (2 * Reps * Rabs x + t)).
Proof. exact brent_correct. Qed.
Print Assumptions C01_brent_sound_total.

Theorem C01_brent_continuous_root :
  forall (f : xr -> res xr) (g : R -> R) (a b t : R),
    a <= b -> 0 < t ->
    (forall x, a <= x <= b -> f (Fin x) = Ok (Fin (g x))) ->
    (forall x, a <= x <= b -> continuity_pt g x) ->
    g a * g b <= 0 ->
    exists x r,
      (forall fuel, 2 * (b - a) / t + 1 <= INR fuel ->
         brent f fuel (Fin a) (Fin b) (Fin t) = Ok (Fin x))
      /\ a <= x <= b /\ a <= r <= b /\ g r = 0
      /\ Rabs (x - r) <= 2 * (2 * Reps * Rabs x + t).
Proof. exact brent_continuous_root. Qed.
Print Assumptions C01_brent_continuous_root.

Theorem C01_brent_nan_iff :
  forall (f : xr -> res xr) (g : R -> R) (a b t : R) (fuel : nat),
    0 < t -> 2 * (b - a) / t + 1 <= INR fuel ->
    (forall x, a <= x <= b -> f (Fin x) = Ok (Fin (g x))) ->
    (brent f fuel (Fin a) (Fin b) (Fin t) = Ok NaN <-> (b < a \/ 0 < g a * g b)).
Proof. exact brent_nan_iff. Qed.
Print Assumptions C01_brent_nan_iff.

Theorem C01_brent_nan_bounds :
  forall (f : xr -> res xr) (a b t : xr) (fuel : nat),
    a = NaN \/ b = NaN -> brent f fuel a b t = Ok NaN.
Proof. exact brent_nan_bounds. Qed.
Print Assumptions C01_brent_nan_bounds.

(** In binary64 the protection against a missing sign change can be
    circumvented by underflow: both end values are positive, yet a number is
    returned. *)
Theorem C01_brent_no_sign_change_f64_refuted :
  exists (f : f64 -> res f64) (a b t : f64) (fa fb x : f64),
    f a = Ok fa /\ f b = Ok fb
    /\ ltb (lit 0 0) fa = true /\ ltb (lit 0 0) fb = true
    /\ brent f 100 a b t = Ok x /\ isnan x = false.
Proof. exact brent_underflow. Qed.
Print Assumptions C01_brent_no_sign_change_f64_refuted.

Example C01_ex : exists x,
  brent (lift_ok (fun x => x * x - 2)) 50 (Fin 0) (Fin 2) (Fin (1 / 10)) = Ok (Fin x)
  /\ 0 <= x <= 2.
Proof.
  destruct (C01_brent_sound_total (lift_ok (fun x => x * x - 2)) (fun x => x * x - 2) 0 2 (1 / 10))
    as (x & E & H & _); try lra.
  - intros; reflexivity.
  - exists x. split; [apply E; simpl; lra|assumption].
Qed.

(** ** C02, C03  [guess_to_bounds]: valid, complete, and at most 13 passes *)
Theorem C02_guess_to_bounds :
  forall (f : xr -> res xr) (g : R -> R) (x : xr) (A B : R),
    A <= B -> x <> NaN ->
    (forall x, A <= x <= B -> f (Fin x) = Ok (Fin (g x))) ->
    exists r,
      (forall fuel, (13 <= fuel)%nat -> guess_to_bounds f fuel x (Fin A) (Fin B) = Ok r)
      /\ ((r = (Fin A, Fin A) /\ g A = 0)
          \/ (r = (Fin B, Fin B) /\ g B = 0)
          \/ (exists a b, r = (Fin a, Fin b) /\ A <= a <= b /\ b <= B
                 /\ (forall y, x = Fin y -> A <= y <= B -> a <= y <= b)
                 /\ opposite (g a) (g b))
          \/ (r = (NaN, NaN) /\ 0 < g A * g B)).
Proof. exact guess_to_bounds_spec. Qed.
Print Assumptions C02_guess_to_bounds.

Example C02_ex : exists r,
  guess_to_bounds (lift_ok (fun x => x * x - 2)) 13 (Fin 7) (Fin 0) (Fin 2) = Ok r
  /\ fst r <> NaN.
Proof.
  destruct (C02_guess_to_bounds (lift_ok (fun x => x * x - 2)) (fun x => x * x - 2) (Fin 7) 0 2)
    as (r & E & H); try lra; try congruence.
  - intros; reflexivity.
  - exists r. split; [apply E; lia|].
    destruct H as [[-> _]|[[-> _]|[(a & b & -> & _)|[_ H]]]]; simpl; try congruence; lra.
Qed.

(** with a NaN guess the loop never ends *)
Theorem C03_nan_guess_diverges :
  forall (f : xr -> res xr) (A B gA gB : R) (v : xr),
    f (Fin A) = Ok (Fin gA) -> gA <> 0 -> f (Fin B) = Ok (Fin gB) -> gB <> 0 ->
    f NaN = Ok v ->
    forall fuel, guess_to_bounds f fuel NaN (Fin A) (Fin B) = Err OutOfFuel.
Proof. exact guess_to_bounds_nan_diverges. Qed.
Print Assumptions C03_nan_guess_diverges.

Example C03_ex : forall fuel,
  guess_to_bounds (lift_ok (fun x => x * x - 2)) fuel NaN (Fin 0) (Fin 2) = Err OutOfFuel.
Proof.
  apply (C03_nan_guess_diverges _ 0 2 (0 * 0 - 2) (2 * 2 - 2) NaN); try reflexivity; lra.
Qed.

(** ** C04  [brent_guess] *)
Theorem C04_brent_guess :
  forall (f : xr -> res xr) (g : R -> R) (x : xr) (A B t : R),
    A <= B -> x <> NaN -> 0 < t ->
    (forall x, A <= x <= B -> f (Fin x) = Ok (Fin (g x))) ->
    exists r,
      (forall fuel_g fuel_b, (13 <= fuel_g)%nat -> 2 * (B - A) / t + 1 <= INR fuel_b ->
         brent_guess f fuel_g fuel_b x (Fin A) (Fin B) (Fin t) = Ok r)
      /\ ((r = NaN /\ 0 < g A * g B)
          \/ exists y, r = Fin y /\ A <= y <= B
               /\ near_root g A B y (2 * (2 * Reps * Rabs y + t))).
Proof. exact brent_guess_correct. Qed.
Print Assumptions C04_brent_guess.

Example C04_ex : exists y,
  brent_guess (lift_ok (fun x => x * x - 2)) 13 50 (Fin 1) (Fin 0) (Fin 2) (Fin (1 / 10)) = Ok (Fin y)
  /\ 0 <= y <= 2.
Proof.
  destruct (C04_brent_guess (lift_ok (fun x => x * x - 2)) (fun x => x * x - 2) (Fin 1) 0 2 (1 / 10))
    as (r & E & H); try lra; try congruence.
  - intros; reflexivity.
  - destruct H as [[_ H]|(y & -> & H & _)]; [lra|].
    exists y. split; [apply E; [lia|simpl; lra]|assumption].
Qed.

(** ** C05  "within t of the returned value there is an exact root" is false. *)
Theorem C05_root_within_tol_refuted :
  exists (g : R -> R) (a b t x : R),
    a <= b /\ 0 < t /\ (forall x, a <= x <= b -> continuity_pt g x) /\ g a * g b <= 0
    /\ (forall fuel, (1 <= fuel)%nat -> brent (lift_ok g) fuel (Fin a) (Fin b) (Fin t) = Ok (Fin x))
    /\ forall r, g r = 0 -> Rabs (x - r) > 2 * Reps * Rabs x + t.
Proof. exact brent_within_tol_refuted. Qed.
Print Assumptions C05_root_within_tol_refuted.
