(** * Jackett and McDougall (1995) equation of state

    Translation of neutralocean/eos/jmd95.py, statement by statement; operation order and
    decimal literals are those of the source.  [dv] is division: a compiled scalar function
    raises ZeroDivisionError ([sdiv]), the same function applied to arrays follows numpy
    ([div], never raising).  Powers with a literal exponent are repeated
    multiplications ([fpow]). *)
From Coq Require Import ZArith List.
From Verif Require Import Num Res M_eos_base.
Open Scope num_scope.

Section EOS.
  Context {F : Type} {N : Num F}.

  (** eos/jmd95.py:32-77 *)
  Definition eosJMDCFw0 : F := lit 999842594 (-6).
  Definition eosJMDCFw1 : F := lit 6793952 (-8).
  Definition eosJMDCFw2 : F := lit (-909529) (-8).
  Definition eosJMDCFw3 : F := lit 1001685 (-10).
  Definition eosJMDCFw4 : F := lit (-1120083) (-12).
  Definition eosJMDCFw5 : F := lit 6536332 (-15).
  Definition eosJMDCSw0 : F := lit 824493 (-6).
  Definition eosJMDCSw1 : F := lit (-40899) (-7).
  Definition eosJMDCSw2 : F := lit 76438 (-9).
  Definition eosJMDCSw3 : F := lit (-82467) (-11).
  Definition eosJMDCSw4 : F := lit 53875 (-13).
  Definition eosJMDCSw5 : F := lit (-572466) (-8).
  Definition eosJMDCSw6 : F := lit 10227 (-8).
  Definition eosJMDCSw7 : F := lit (-16546) (-10).
  Definition eosJMDCSw8 : F := lit 48314 (-8).
  Definition eosJMDCKFw0 : F := lit 1965933 (-1).
  Definition eosJMDCKFw1 : F := lit 1444304 (-3).
  Definition eosJMDCKFw2 : F := lit (-1706103) (-5).
  Definition eosJMDCKFw3 : F := lit 9648704 (-8).
  Definition eosJMDCKFw4 : F := lit (-4190253) (-10).
  Definition eosJMDCKSw0 : F := lit 5284855 (-4).
  Definition eosJMDCKSw1 : F := lit (-3101089) (-6).
  Definition eosJMDCKSw2 : F := lit 6283263 (-8).
  Definition eosJMDCKSw3 : F := lit (-5084188) (-10).
  Definition eosJMDCKSw4 : F := lit 388664 (-5).
  Definition eosJMDCKSw5 : F := lit 9085835 (-8).
  Definition eosJMDCKSw6 : F := lit (-4619924) (-9).
  Definition eosJMDCKP0 : F := lit 3186519 (-6).
  Definition eosJMDCKP1 : F := lit 2212276 (-8).
  Definition eosJMDCKP2 : F := lit (-2984642) (-10).
  Definition eosJMDCKP3 : F := lit 1956415 (-12).
  Definition eosJMDCKP4 : F := lit 6704388 (-9).
  Definition eosJMDCKP5 : F := lit (-1847318) (-10).
  Definition eosJMDCKP6 : F := lit 2059331 (-13).
  Definition eosJMDCKP7 : F := lit 1480266 (-10).
  Definition eosJMDCKP8 : F := lit 2102898 (-11).
  Definition eosJMDCKP9 : F := lit (-1202016) (-12).
  Definition eosJMDCKP10 : F := lit 139468 (-13).
  Definition eosJMDCKP11 : F := lit (-2040237) (-13).
  Definition eosJMDCKP12 : F := lit 6128773 (-15).
  Definition eosJMDCKP13 : F := lit 6207323 (-17).

  Variable dv : F -> F -> res F.

  (** eos/jmd95.py:87-172 *)
  Definition jmd95_rho (s t p : F) : res F :=
    let s1o2 := fsqrt s in
    let K := lit 1965933 (-1) + t * (lit 1444304 (-3) + t * (lit (-1706103) (-5) + t *
      (lit 9648704 (-8) + t * lit (-4190253) (-10)))) + s * (lit 5284855 (-4) + t *
      (lit (-3101089) (-6) + t * (lit 6283263 (-8) + t * lit (-5084188) (-10))) + s1o2 *
      (lit 388664 (-5) + t * (lit 9085835 (-8) + t * lit (-4619924) (-9)))) + p *
      (lit 3186519 (-6) + t * (lit 2212276 (-8) + t * (lit (-2984642) (-10) + t *
      lit 1956415 (-12))) + s * (lit 6704388 (-9) + t * (lit (-1847318) (-10) + t *
      lit 2059331 (-13)) + s1o2 * lit 1480266 (-10)) + p * (lit 2102898 (-11) + t *
      (lit (-1202016) (-12) + t * lit 139468 (-13)) + s * (lit (-2040237) (-13) + t *
      (lit 6128773 (-15) + t * lit 6207323 (-17))))) in
    let! q1 := dv p K in
    let! q2 := dv (lit 999842594 (-6) + t * (lit 6793952 (-8) + t * (lit (-909529) (-8) + t
      * (lit 1001685 (-10) + t * (lit (-1120083) (-12) + t * lit 6536332 (-15))))) + s *
      (lit 824493 (-6) + t * (lit (-40899) (-7) + t * (lit 76438 (-9) + t * (lit (-82467) (-11) +
      t * lit 53875 (-13)))) + s1o2 * (lit (-572466) (-8) + t * (lit 10227 (-8) + t *
      lit (-16546) (-10))) + s * lit 48314 (-8))) (lit 1 0 - q1) in
    let rho_ := q2 in
    Ok rho_.

  (** eos/jmd95.py:187-315 *)
  Definition jmd95_rho_s_t (s t p : F) : res (F * F) :=
    let s1o2 := fsqrt s in
    let K := eosJMDCKFw0 + t * (eosJMDCKFw1 + t * (eosJMDCKFw2 + t * (eosJMDCKFw3 + t *
      eosJMDCKFw4))) + s * (eosJMDCKSw0 + t * (eosJMDCKSw1 + t * (eosJMDCKSw2 + t * eosJMDCKSw3))
      + s1o2 * (eosJMDCKSw4 + t * (eosJMDCKSw5 + t * eosJMDCKSw6))) + p * (eosJMDCKP0 + t *
      (eosJMDCKP1 + t * (eosJMDCKP2 + t * eosJMDCKP3)) + s * (eosJMDCKP4 + t * (eosJMDCKP5 + t *
      eosJMDCKP6) + s1o2 * eosJMDCKP7) + p * (eosJMDCKP8 + t * (eosJMDCKP9 + t * eosJMDCKP10) + s
      * (eosJMDCKP11 + t * (eosJMDCKP12 + t * eosJMDCKP13)))) in
    let! q1 := dv ((eosJMDCFw0 + t * (eosJMDCFw1 + t * (eosJMDCFw2 + t * (eosJMDCFw3 + t *
      (eosJMDCFw4 + t * eosJMDCFw5)))) + s * (eosJMDCSw0 + t * (eosJMDCSw1 + t * (eosJMDCSw2 + t *
      (eosJMDCSw3 + t * eosJMDCSw4))) + s1o2 * (eosJMDCSw5 + t * (eosJMDCSw6 + t * eosJMDCSw7)) +
      s * eosJMDCSw8)) * p) (K - p) in
    let! q2 := dv ((eosJMDCSw0 + t * (eosJMDCSw1 + t * (eosJMDCSw2 + t * (eosJMDCSw3 + t *
      eosJMDCSw4))) + s1o2 * (lit 15 (-1) * eosJMDCSw5 + t * (lit 15 (-1) * eosJMDCSw6 + t *
      (lit 15 (-1) * eosJMDCSw7))) + s * (lit 2 0 * eosJMDCSw8)) * K - q1 * (eosJMDCKSw0 + t *
      (eosJMDCKSw1 + t * (eosJMDCKSw2 + t * eosJMDCKSw3)) + s1o2 * (lit 15 (-1) * eosJMDCKSw4 + t
      * (lit 15 (-1) * eosJMDCKSw5 + t * (lit 15 (-1) * eosJMDCKSw6))) + p * (eosJMDCKP4 + t *
      (eosJMDCKP5 + t * eosJMDCKP6) + s1o2 * (lit 15 (-1) * eosJMDCKP7) + p * (eosJMDCKP11 + t *
      (eosJMDCKP12 + t * eosJMDCKP13))))) (K - p) in
    let rho_s_ := q2 in
    let! q3 := dv ((eosJMDCFw0 + t * (eosJMDCFw1 + t * (eosJMDCFw2 + t * (eosJMDCFw3 + t *
      (eosJMDCFw4 + t * eosJMDCFw5)))) + s * (eosJMDCSw0 + t * (eosJMDCSw1 + t * (eosJMDCSw2 + t *
      (eosJMDCSw3 + t * eosJMDCSw4))) + s1o2 * (eosJMDCSw5 + t * (eosJMDCSw6 + t * eosJMDCSw7)) +
      s * eosJMDCSw8)) * p) (K - p) in
    let! q4 := dv ((eosJMDCFw1 + t * (lit 2 0 * eosJMDCFw2 + t * (lit 3 0 * eosJMDCFw3 + t *
      (lit 4 0 * eosJMDCFw4 + t * (lit 5 0 * eosJMDCFw5)))) + s * (eosJMDCSw1 + t * (lit 2 0 *
      eosJMDCSw2 + t * (lit 3 0 * eosJMDCSw3 + t * (lit 4 0 * eosJMDCSw4))) + s1o2 * (eosJMDCSw6 +
      t * (lit 2 0 * eosJMDCSw7)))) * K - q3 * (eosJMDCKFw1 + t * (lit 2 0 * eosJMDCKFw2 + t *
      (lit 3 0 * eosJMDCKFw3 + t * (lit 4 0 * eosJMDCKFw4))) + s * (eosJMDCKSw1 + t * (lit 2 0 *
      eosJMDCKSw2 + t * (lit 3 0 * eosJMDCKSw3)) + s1o2 * (eosJMDCKSw5 + t * (lit 2 0 *
      eosJMDCKSw6))) + p * (eosJMDCKP1 + t * (lit 2 0 * eosJMDCKP2 + t * (lit 3 0 * eosJMDCKP3)) +
      s * (eosJMDCKP5 + t * (lit 2 0 * eosJMDCKP6)) + p * (eosJMDCKP9 + t * (lit 2 0 *
      eosJMDCKP10) + s * (eosJMDCKP12 + t * (lit 2 0 * eosJMDCKP13)))))) (K - p) in
    let rho_t_ := q4 in
    Ok (rho_s_, rho_t_).

  (** eos/jmd95.py:319-372 *)
  Definition jmd95_rho_p (s t p : F) : res F :=
    let s1o2 := fsqrt s in
    let K2 := p * (eosJMDCKP8 + t * (eosJMDCKP9 + t * eosJMDCKP10) + s * (eosJMDCKP11 + t *
      (eosJMDCKP12 + t * eosJMDCKP13))) in
    let K1plusK2 := K2 + eosJMDCKP0 + t * (eosJMDCKP1 + t * (eosJMDCKP2 + t * eosJMDCKP3)) +
      s * (eosJMDCKP4 + t * (eosJMDCKP5 + t * eosJMDCKP6) + eosJMDCKP7 * s1o2) in
    let K := eosJMDCKFw0 + t * (eosJMDCKFw1 + t * (eosJMDCKFw2 + t * (eosJMDCKFw3 + t *
      eosJMDCKFw4))) + s * (eosJMDCKSw0 + t * (eosJMDCKSw1 + t * (eosJMDCKSw2 + t * eosJMDCKSw3))
      + s1o2 * (eosJMDCKSw4 + t * (eosJMDCKSw5 + t * eosJMDCKSw6))) + p * K1plusK2 in
    let rho_ := eosJMDCFw0 + t * (eosJMDCFw1 + t * (eosJMDCFw2 + t * (eosJMDCFw3 + t *
      (eosJMDCFw4 + t * eosJMDCFw5)))) + s * (eosJMDCSw0 + t * (eosJMDCSw1 + t * (eosJMDCSw2 + t *
      (eosJMDCSw3 + t * eosJMDCSw4))) + s1o2 * (eosJMDCSw5 + t * (eosJMDCSw6 + t * eosJMDCSw7)) +
      s * eosJMDCSw8) in
    let! q1 := dv (rho_ * (K - p * (K1plusK2 + K2))) (fpow (K - p) 2) in
    let rho_p_ := q1 in
    Ok rho_p_.
End EOS.
