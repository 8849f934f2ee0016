(** * Model of neutralocean/fzero.py *)
From Coq Require Import ZArith Bool List.
From Verif Require Import Num Res.
Local Open Scope num_scope.

Section Fzero.
  Context {F : Type} {N : Num F}.

  (** The function [f] (with its [args] already supplied) may raise. *)
  Variable f : F -> res F.

  (** Local variables of the loop of [brent], fzero.py:83-149 *)
  Record bstate := mkB { ba : F; bb : F; bc : F; bfa : F; bfb : F; bfc : F; bd : F; be : F }.

  (** fzero.py:107-115: secant or inverse quadratic interpolation, (p, q) *)
  Definition brent_interp (a b c fa fb fc m : F) : res (F * F) :=
    let! s := sdiv fb fa in
    if a =? c then
      Ok (lit 2 0 * m * s, lit 1 0 - s)
    else
      let! q := sdiv fa fc in
      let! r := sdiv fb fc in
      let p := s * (lit 2 0 * m * q * (q - r) - (b - a) * (r - lit 1 0)) in
      let q := (q - lit 1 0) * (r - lit 1 0) * (s - lit 1 0) in
      Ok (p, q).

  (** fzero.py:103-129: choice of the step; returns (d, e) *)
  Definition brent_choose (a b c fa fb fc d e m tol : F) : res (F * F) :=
    if (fabs e <? tol) || (fabs fa <=? fabs fb) then
      Ok (m, m)
    else
      let! pq := brent_interp a b c fa fb fc m in
      let (p, q) := pq in
      let (p, q) := if lit 0 0 <? p then (p, - q) else (- p, q) in
      let s := e in
      let e := d in
      if (lit 2 0 * p <? lit 3 0 * m * q - fabs (tol * q))
         && (p <? fabs (lit 5 (-1) * s * q)) then
        let! d := sdiv p q in
        Ok (d, e)
      else
        Ok (m, m).

  (** One pass of the loop body, fzero.py:89-147 *)
  Definition brent_body (t : F) (st : bstate) : res (bstate + F) :=
    let '(mkB a b c fa fb fc d e) := st in
    (* 89-95 *)
    let '(a, b, c, fa, fb, fc) :=
      if fabs fc <? fabs fb then (b, c, b, fb, fc, fb) else (a, b, c, fa, fb, fc) in
    let tol := lit 2 0 * eps * fabs b + t in
    let m := lit 5 (-1) * (c - b) in
    if (fabs m <=? tol) || (fb =? lit 0 0) then Ok (inr b)
    else
      let! de := brent_choose a b c fa fb fc d e m tol in
      let (d, e) := de in
      let a := b in
      let fa := fb in
      let b :=
        if tol <? fabs d then b + d
        else if lit 0 0 <? m then b + tol
        else b - tol in
      let! fb := f b in
      if ((lit 0 0 <? fb) && (lit 0 0 <? fc)) || ((fb <=? lit 0 0) && (fc <=? lit 0 0)) then
        Ok (inl (mkB a b a fa fb fa (b - a) (b - a)))
      else
        Ok (inl (mkB a b c fa fb fc d e)).

  (** fzero.py:43-149 *)
  Definition brent (fuel : nat) (a b t : F) : res F :=
    if isnan a || isnan b || (a >? b) then Ok nan
    else
      let! fa := f a in
      let! fb := f b in
      if fa * fb >? lit 0 0 then Ok nan
      else
        let e := b - a in
        loop fuel (brent_body t) (mkB a b a fa fb fa e e).

  (** Local variables of the loop of [guess_to_bounds]; [fapos]/[fbpos] are
      [None] while unassigned. *)
  Record gstate := mkG { ga : F; gb : F; gdxm : F; gdxp : F;
                         gfapos : option bool; gfbpos : option bool }.

  (** fapos != fbpos, fzero.py:224, 227, 237, 240 *)
  Definition differ (x y : option bool) : res bool :=
    match x, y with
    | Some x, Some y => Ok (xorb x y)
    | _, _ => Err NameError
    end.

  (** First half of the loop body, fzero.py:219-230: move a left *)
  Definition gtb_left (x A B : F) (st : gstate) : res (gstate + (F * F)) :=
    let '(mkG a b dxm dxp fapos fbpos) := st in
    if a >? A then
      let dxm := dxm * lit 1414213562373095 (-15) in
      let a := fmax (x - dxm) A in
      let! fa := f a in
      let fapos := Some (fa >? lit 0 0) in
      let! df := differ fapos fbpos in
      Ok (if df then inr (a, b) else inl (mkG a b dxm dxp fapos fbpos))
    else if b =? B then
      let! df := differ fapos fbpos in
      Ok (inr (if df then (a, b) else (nan, nan)))
    else Ok (inl st).

  (** Second half of the loop body, fzero.py:232-243: move b right *)
  Definition gtb_right (x A B : F) (st : gstate) : res (gstate + (F * F)) :=
    let '(mkG a b dxm dxp fapos fbpos) := st in
    if b <? B then
      let dxp := dxp * lit 1414213562373095 (-15) in
      let b := fmin (x + dxp) B in
      let! fb := f b in
      let fbpos := Some (fb >? lit 0 0) in
      let! df := differ fapos fbpos in
      Ok (if df then inr (a, b) else inl (mkG a b dxm dxp fapos fbpos))
    else if a =? A then
      let! df := differ fapos fbpos in
      Ok (inr (if df then (a, b) else (nan, nan)))
    else Ok (inl st).

  (** One pass of the loop body, fzero.py:219-243 *)
  Definition gtb_body (x A B : F) (st : gstate) : res (gstate + (F * F)) :=
    let! r := gtb_left x A B st in
    match r with
    | inr ab => Ok (inr ab)
    | inl st => gtb_right x A B st
    end.

  (** fzero.py:153-243 *)
  Definition guess_to_bounds (fuel : nat) (x A B : F) : res (F * F) :=
    let! fA := f A in
    if fA =? lit 0 0 then Ok (A, A)
    else
      let! fB := f B in
      if fB =? lit 0 0 then Ok (B, B)
      else
        let x := fmin (fmax x A) B in
        let! dxp := sdiv (B - x) (lit 50 0) in
        let! dxm := sdiv (x - A) (lit 50 0) in
        let a := if dxm =? lit 0 0 then A else x in
        let b := if dxp =? lit 0 0 then B else x in
        let! st :=
          if a >? A then
            let! fb := f b in
            Ok (mkG a b dxm dxp None (Some (fb >? lit 0 0)))
          else if b =? B then
            let! fa := f a in
            let! fb := f b in
            Ok (mkG a b dxm dxp (Some (fa >? lit 0 0)) (Some (fb >? lit 0 0)))
          else
            let! fa := f a in
            Ok (mkG a b dxm dxp (Some (fa >? lit 0 0)) None) in
        loop fuel (gtb_body x A B) st.

  (** fzero.py:13-39; the two loops get separate fuel *)
  Definition brent_guess (fuel_g fuel_b : nat) (x A B t : F) : res F :=
    let! ab := guess_to_bounds fuel_g x A B in
    let (a, b) := ab in
    brent fuel_b a b t.
End Fzero.
