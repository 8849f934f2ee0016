(** * Operations used only by the equations of state *)
From Coq Require Import ZArith List.
From Verif Require Import Num Res.

Section Base.
  Context {F : Type} {N : Num F}.

  (** x ** n for a literal n >= 1, as numba compiles it: repeated multiplication *)
  Fixpoint fpow (x : F) (n : nat) : F :=
    match n with
    | O => one
    | 1%nat => x
    | S n' => mul (fpow x n') x
    end.

  (** np.maximum(x, y): NaN when either is NaN *)
  Definition npmaximum (x y : F) : F :=
    if isnan x then x else if isnan y then y else if ltb x y then y else x.

  (** numpy division of arrays, elementwise: never raises *)
  Definition adiv (x y : F) : res F := Ok (div x y).
End Base.
