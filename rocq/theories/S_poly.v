(** * Specification: polynomials with coefficients listed highest power first *)
From Coq Require Import Reals List.
Import ListNotations.
Local Open Scope R_scope.

(** poly [c_n; ...; c_1; c_0] x = c_n x^n + ... + c_1 x + c_0 *)
Fixpoint poly (C : list R) (x : R) : R :=
  match C with
  | [] => 0
  | c :: r => c * x ^ (length r) + poly r x
  end.
