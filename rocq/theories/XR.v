(** * Extended reals: exact real arithmetic with NaN and infinities

    Simplifications with respect to IEEE binary64: no rounding, no overflow or
    underflow, and only one zero (so x/0 has the sign of x). *)
From Coq Require Import ZArith Bool Reals Lra List.
From Verif Require Import Num.

Inductive xr : Type :=
| Fin (r : R)
| PInf
| NInf
| NaN.

Definition Rsgn_inf (r : R) : xr :=
  if Rlt_dec 0 r then PInf else if Rlt_dec r 0 then NInf else NaN.

Definition xr_opp (x : xr) : xr :=
  match x with Fin r => Fin (- r) | PInf => NInf | NInf => PInf | NaN => NaN end.

Definition xr_add (x y : xr) : xr :=
  match x, y with
  | Fin a, Fin b => Fin (a + b)
  | NaN, _ | _, NaN => NaN
  | PInf, NInf | NInf, PInf => NaN
  | PInf, _ | _, PInf => PInf
  | NInf, _ | _, NInf => NInf
  end.

Definition xr_sub (x y : xr) : xr :=
  match x, y with
  | Fin a, Fin b => Fin (a - b)
  | _, _ => xr_add x (xr_opp y)
  end.

Definition xr_mul (x y : xr) : xr :=
  match x, y with
  | Fin a, Fin b => Fin (a * b)
  | NaN, _ | _, NaN => NaN
  | Fin a, PInf | PInf, Fin a => Rsgn_inf a
  | Fin a, NInf | NInf, Fin a => Rsgn_inf (- a)
  | PInf, PInf | NInf, NInf => PInf
  | PInf, NInf | NInf, PInf => NInf
  end.

Definition xr_div (x y : xr) : xr :=
  match x, y with
  | Fin a, Fin b => if Req_EM_T b 0 then Rsgn_inf a else Fin (a / b)
  | NaN, _ | _, NaN => NaN
  | Fin _, _ => Fin 0
  | PInf, Fin b => if Rlt_dec b 0 then NInf else PInf
  | NInf, Fin b => if Rlt_dec b 0 then PInf else NInf
  | _, _ => NaN
  end.

Definition xr_abs (x : xr) : xr :=
  match x with Fin r => Fin (Rabs r) | NaN => NaN | _ => PInf end.

Definition xr_sqrt (x : xr) : xr :=
  match x with
  | Fin r => if Rlt_dec r 0 then NaN else Fin (sqrt r)
  | PInf => PInf | _ => NaN
  end.

Definition xr_ltb (x y : xr) : bool :=
  match x, y with
  | Fin a, Fin b => Rltb a b
  | NaN, _ | _, NaN => false
  | NInf, NInf => false
  | NInf, _ => true
  | _, NInf => false
  | PInf, _ => false
  | _, PInf => true
  end.

Definition xr_eqb (x y : xr) : bool :=
  match x, y with
  | Fin a, Fin b => Reqb a b
  | PInf, PInf | NInf, NInf => true
  | _, _ => false
  end.

Definition xr_leb (x y : xr) : bool :=
  match x, y with
  | Fin a, Fin b => Rleb a b
  | NaN, _ | _, NaN => false
  | NInf, _ => true
  | _, PInf => true
  | _, _ => false
  end.

Definition xr_isnan (x : xr) : bool := match x with NaN => true | _ => false end.
Definition xr_isfinite (x : xr) : bool := match x with Fin _ => true | _ => false end.

Definition xr_ceilZ (x : xr) : Z := match x with Fin r => Rceil r | _ => 0%Z end.

#[export] Instance xrNum : Num xr := {|
  add := xr_add; sub := xr_sub; mul := xr_mul; div := xr_div;
  opp := xr_opp; fabs := xr_abs; fsqrt := xr_sqrt;
  ltb := xr_ltb; leb := xr_leb; eqb := xr_eqb;
  isnan := xr_isnan; isfinite := xr_isfinite;
  nan := NaN; ninf := NInf; ceilZ := xr_ceilZ;
  lit := fun m e => Fin (Rlit m e) |}.

(** A real function of one (three) variables as a function on [xr] that
    returns NaN for arguments that are not finite. *)
Definition lift1 (f : R -> R) (x : xr) : xr :=
  match x with Fin r => Fin (f r) | _ => NaN end.
Definition lift3 (f : R -> R -> R -> R) (x y z : xr) : xr :=
  match x, y, z with Fin a, Fin b, Fin c => Fin (f a b c) | _, _, _ => NaN end.
