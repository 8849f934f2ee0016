(** * Numbers: the floating point operations used by the code

    All numerical code of /repo is modelled once, over this record of
    operations, and then read over the reals ([RNum] below), over the reals
    extended with NaN and infinities ([XR.v]) and over IEEE binary64
    ([SF.v], executable). *)
From Coq Require Import ZArith Bool Reals List.
Import ListNotations.

Class Num (F : Type) : Type := {
  add : F -> F -> F;
  sub : F -> F -> F;
  mul : F -> F -> F;
  div : F -> F -> F;          (* IEEE division (numpy array division) *)
  opp : F -> F;
  fabs : F -> F;
  fsqrt : F -> F;
  ltb : F -> F -> bool;       (* x < y; false when NaN is involved *)
  leb : F -> F -> bool;
  eqb : F -> F -> bool;       (* x == y; false when NaN is involved *)
  isnan : F -> bool;
  isfinite : F -> bool;
  nan : F;
  ninf : F;                   (* -np.inf *)
  ceilZ : F -> Z;             (* int(np.ceil(x)), for finite x *)
  lit : Z -> Z -> F           (* decimal literal: [lit m e] is m * 10^e *)
}.

Declare Scope num_scope.
Delimit Scope num_scope with num.
Infix "+" := add : num_scope.
Infix "-" := sub : num_scope.
Infix "*" := mul : num_scope.
Infix "/" := div : num_scope.
Notation "- x" := (opp x) : num_scope.
Infix "<?" := ltb : num_scope.
Infix "<=?" := leb : num_scope.
Infix "=?" := eqb : num_scope.
Notation "x >? y" := (ltb y x) (only parsing) : num_scope.
Notation "x >=? y" := (leb y x) (only parsing) : num_scope.

Section Derived.
  Context {F : Type} {N : Num F}.

  Definition zero : F := lit 0 0.
  Definition one : F := lit 1 0.
  Definition two : F := lit 2 0.
  Definition of_Z (z : Z) : F := lit z 0.
  Definition of_nat (n : nat) : F := lit (Z.of_nat n) 0.

  (** np.finfo(np.float64).eps, i.e. 2^-52: fzero.py:9 *)
  Definition eps : F := div (lit 1 0) (lit 4503599627370496 0).

  (** Python's builtin max(x, y) and min(x, y) on floats, as compiled by numba:
      the accumulator x is kept unless y compares greater (smaller). *)
  Definition fmax (x y : F) : F := if ltb x y then y else x.
  Definition fmin (x y : F) : F := if ltb y x then y else x.

  (** np.sign(x) *)
  Definition sign (x : F) : F :=
    if isnan x then nan
    else if ltb zero x then one
    else if ltb x zero then lit (-1) 0
    else zero.

  (** left-to-right sum, as np.sum over a short loop / accumulation loops *)
  Definition fsum (l : list F) : F := fold_left add l zero.
End Derived.

(** ** The reals as an instance (no NaN, no infinities).  Used for smooth
    formulas only (equations of state, least squares). *)
Definition Rltb (x y : R) : bool := if Rlt_dec x y then true else false.
Definition Rleb (x y : R) : bool := if Rle_dec x y then true else false.
Definition Reqb (x y : R) : bool := if Req_EM_T x y then true else false.

Definition Rlit (m e : Z) : R :=
  if (0 <=? e)%Z then (IZR m * IZR (10 ^ e))%R else (IZR m / IZR (10 ^ (- e)))%R.

(** smallest integer z with x <= z *)
Definition Rceil (x : R) : Z := (- Int_part (- x))%Z.

#[export] Instance RNum : Num R := {|
  add := Rplus; sub := Rminus; mul := Rmult; div := Rdiv;
  opp := Ropp; fabs := Rabs; fsqrt := sqrt;
  ltb := Rltb; leb := Rleb; eqb := Reqb;
  isnan := fun _ => false; isfinite := fun _ => true;
  nan := 0%R; ninf := 0%R;
  ceilZ := Rceil;
  lit := Rlit |}.
