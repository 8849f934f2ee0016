(** * Jackett et al. (2006) equation of state

    Translation of neutralocean/eos/jmdfwg06.py, statement by statement; operation order and
    decimal literals are those of the source.  [dv] is division: a compiled scalar function
    raises ZeroDivisionError ([sdiv]), the same function applied to arrays follows numpy
    ([div], never raising).  Powers with a literal exponent are repeated
    multiplications ([fpow]). *)
From Coq Require Import ZArith List.
From Verif Require Import Num Res M_eos_base.
Open Scope num_scope.

Section EOS.
  Context {F : Type} {N : Num F}.

  (** eos/jmdfwg06.py:40-67 *)
  Definition jf_a0 : F := lit 99984085444849347 (-14).
  Definition jf_a1 : F := lit 73471625860981584 (-16).
  Definition jf_a2 : F := lit (-53211231792841769) (-18).
  Definition jf_a3 : F := lit 36492439109814549 (-20).
  Definition jf_a4 : F := lit 2588057102399139 (-15).
  Definition jf_a5 : F := lit (-67168282786692355) (-19).
  Definition jf_a6 : F := lit 19203202055760151 (-19).
  Definition jf_a7 : F := lit 11798263740430364 (-18).
  Definition jf_a8 : F := lit 98920219266399117 (-24).
  Definition jf_a9 : F := lit 4699664277175473 (-21).
  Definition jf_a10 : F := lit (-25862187075154352) (-24).
  Definition jf_a11 : F := lit (-32921414007960662) (-28).
  Definition jf_b0 : F := lit 1 0.
  Definition jf_b1 : F := lit 72815210113327091 (-19).
  Definition jf_b2 : F := lit (-44787265461983921) (-21).
  Definition jf_b3 : F := lit 3385100296580243 (-22).
  Definition jf_b4 : F := lit 13651202389758572 (-26).
  Definition jf_b5 : F := lit 17632126669040377 (-19).
  Definition jf_b6 : F := lit (-88066583251206474) (-22).
  Definition jf_b7 : F := lit (-18832689434804897) (-26).
  Definition jf_b8 : F := lit 57463776745432097 (-22).
  Definition jf_b9 : F := lit 14716275472242334 (-25).
  Definition jf_b10 : F := lit 67103246285651894 (-22).
  Definition jf_b11 : F := lit (-24461698007024582) (-33).
  Definition jf_b12 : F := lit (-91534417604289062) (-34).
  Definition jf_epsln : F := lit 1 (-40).

  Variable dv : F -> F -> res F.

  (** eos/jmdfwg06.py:72-108 *)
  Definition jmdfwg06_rho (s t p : F) : res F :=
    let t2 := t * t in
    let num_ := jf_a0 + t * (jf_a1 + t * (jf_a2 + jf_a3 * t)) + s * (jf_a4 + jf_a5 * t +
      jf_a6 * s) + p * (jf_a7 + jf_a8 * t2 + jf_a9 * s + p * (jf_a10 + jf_a11 * t2)) in
    let! q1 := dv (lit 1 0) (jf_b0 + t * (jf_b1 + t * (jf_b2 + t * (jf_b3 + t * jf_b4))) + s
      * (jf_b5 + t * (jf_b6 + jf_b7 * t2) + fsqrt s * (jf_b8 + jf_b9 * t2)) + p * (jf_b10 + p * t
      * (jf_b11 * t2 + jf_b12 * p)) + jf_epsln) in
    let inv_den := q1 in
    Ok (num_ * inv_den).

  (** eos/jmdfwg06.py:112-180 *)
  Definition jmdfwg06_rho_s_t (s t p : F) : res (F * F) :=
    let t2 := t * t in
    let sp5 := fsqrt s in
    let pt := p * t in
    let num_ := jf_a0 + t * (jf_a1 + t * (jf_a2 + jf_a3 * t)) + s * (jf_a4 + jf_a5 * t +
      jf_a6 * s) + p * (jf_a7 + jf_a8 * t2 + jf_a9 * s + p * (jf_a10 + jf_a11 * t2)) in
    let! q1 := dv (lit 1 0) (jf_b0 + t * (jf_b1 + t * (jf_b2 + t * (jf_b3 + t * jf_b4))) + s
      * (jf_b5 + t * (jf_b6 + jf_b7 * t2) + sp5 * (jf_b8 + jf_b9 * t2)) + p * (jf_b10 + pt *
      (jf_b11 * t2 + jf_b12 * p)) + jf_epsln) in
    let inv_den := q1 in
    let num_s := jf_a4 + jf_a5 * t + lit 2 0 * jf_a6 * s + p * jf_a9 in
    let num_t := jf_a1 + t * (lit 2 0 * jf_a2 + lit 3 0 * jf_a3 * t) + jf_a5 * s + lit 2 0 *
      jf_a8 * pt + lit 2 0 * jf_a11 * p * pt in
    let den_s := jf_b5 + t * (jf_b6 + jf_b7 * t2) + sp5 * (lit 15 (-1) * jf_b8 + lit 15 (-1)
      * jf_b9 * t2) in
    let den_t := jf_b1 + t * (lit 2 0 * jf_b2 + t * (lit 3 0 * jf_b3 + lit 4 0 * jf_b4 * t))
      + s * (jf_b6 + lit 3 0 * jf_b7 * t2 + lit 2 0 * jf_b9 * sp5 * t) + lit 3 0 * jf_b11 * pt *
      pt + jf_b12 * fpow p 3 in
    let rho_s_ := (num_s - num_ * den_s * inv_den) * inv_den in
    let rho_t_ := (num_t - num_ * den_t * inv_den) * inv_den in
    Ok (rho_s_, rho_t_).

  (** eos/jmdfwg06.py:184-229 *)
  Definition jmdfwg06_rho_p (s t p : F) : res F :=
    let t2 := t * t in
    let num_ := jf_a0 + t * (jf_a1 + t * (jf_a2 + jf_a3 * t)) + s * (jf_a4 + jf_a5 * t +
      jf_a6 * s) + p * (jf_a7 + jf_a8 * t2 + jf_a9 * s + p * (jf_a10 + jf_a11 * t2)) in
    let! q1 := dv (lit 1 0) (jf_b0 + t * (jf_b1 + t * (jf_b2 + t * (jf_b3 + t * jf_b4))) + s
      * (jf_b5 + t * (jf_b6 + jf_b7 * t2) + fsqrt s * (jf_b8 + jf_b9 * t2)) + p * (jf_b10 + p * t
      * (jf_b11 * t2 + jf_b12 * p)) + jf_epsln) in
    let inv_den := q1 in
    let num_p := jf_a7 + jf_a8 * t2 + jf_a9 * s + p * (lit 2 0 * jf_a10 + lit 2 0 * jf_a11 *
      t2) in
    let den_p := jf_b10 + p * t * (lit 2 0 * jf_b11 * t2 + lit 3 0 * jf_b12 * p) in
    Ok ((num_p - num_ * den_p * inv_den) * inv_den).
End EOS.
