(** * IEEE binary64, bit exact and executable, from the standard library's
    [SpecFloat] (round to nearest even). *)
From Coq Require Import ZArith Bool List SpecFloat.
From Verif Require Import Num.

Definition f64 : Type := spec_float.

Definition sf_add : f64 -> f64 -> f64 := SFadd 53 1024.
Definition sf_sub : f64 -> f64 -> f64 := SFsub 53 1024.
Definition sf_mul : f64 -> f64 -> f64 := SFmul 53 1024.
Definition sf_div : f64 -> f64 -> f64 := SFdiv 53 1024.
Definition sf_sqrt : f64 -> f64 := SFsqrt 53 1024.

Definition sf_isnan (x : f64) : bool := match x with S754_nan => true | _ => false end.
Definition sf_isfinite (x : f64) : bool :=
  match x with S754_zero _ | S754_finite _ _ _ => true | _ => false end.

(** correctly rounded decimal literal m * 10^e *)
Definition sf_of_Z (z : Z) : f64 := binary_normalize 53 1024 z 0 false.
Definition sf_lit (m e : Z) : f64 :=
  if (0 <=? e)%Z then sf_of_Z (m * 10 ^ e)
  else match m, (10 ^ (- e))%Z with
       | Zpos p, Zpos q => SFdiv 53 1024 (S754_finite false p 0) (S754_finite false q 0)
       | Zneg p, Zpos q => SFdiv 53 1024 (S754_finite true p 0) (S754_finite false q 0)
       | _, _ => S754_zero false
       end.

Definition sf_ceilZ (x : f64) : Z :=
  match x with
  | S754_finite s m e =>
      let z := if s then Zneg m else Zpos m in
      if (0 <=? e)%Z then (z * 2 ^ e)%Z else (- ((- z) / 2 ^ (- e)))%Z
  | _ => 0%Z
  end.

#[export] Instance sfNum : Num f64 := {|
  add := sf_add; sub := sf_sub; mul := sf_mul; div := sf_div;
  opp := SFopp; fabs := SFabs; fsqrt := sf_sqrt;
  ltb := SFltb; leb := SFleb; eqb := SFeqb;
  isnan := sf_isnan; isfinite := sf_isfinite;
  nan := S754_nan; ninf := S754_infinity true; ceilZ := sf_ceilZ;
  lit := sf_lit |}.
