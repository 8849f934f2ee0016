(** * Model of neutralocean/label.py: the Veronis density

    [int(np.ceil(x))] of a NaN or infinite x is a huge negative or unrepresentable number; the
    array allocation that follows raises ValueError, so a non-finite x raises here.
    np.linspace and np.trapz are written out as numba does: start + i * step with the last
    point replaced by stop, and the sum of (x[i+1] - x[i]) * ((y[i+1] + y[i]) / 2) (summed
    from the left).  The equation of state is applied to an array element by element. *)
From Coq Require Import String ZArith Bool List.
From Verif Require Import Num Res Arr M_numpy M_ppinterp M_make_pp M_eos_base M_eostools.
Import ListNotations.
Local Open Scope num_scope.

Section LABEL.
  Context {F : Type} {N : Num F}.

  (** np.linspace(start, stop, n) *)
  Definition linspace (start stop : F) (n : nat) : list F :=
    match n with
    | O => []
    | 1%nat => [start]
    | S m =>
        let step := (stop - start) / of_nat m in
        map (fun i => if Nat.eqb i m then stop else start + of_nat i * step) (seq 0 n)
    end.

  (** np.trapz(y, x=x) *)
  Fixpoint trapz_terms (y x : list F) : list F :=
    match y, x with
    | y0 :: ((y1 :: _) as y'), x0 :: ((x1 :: _) as x') =>
        (x1 - x0) * ((y1 + y0) / lit 2 0) :: trapz_terms y' x'
    | _, _ => []
    end.
  Definition trapz (y x : list F) : F := fsum (trapz_terms y x).

  (** label.py:232-273 *)
  Definition _int_x_k (p : F) (k : nat) (dp : F) (P : list F) (Sppc Tppc : list (list F))
      (eos_s_t : F -> F -> F -> res (F * F)) : res F :=
    let! Pk1 := get P (k + 1) in
    let! q := sdiv (Pk1 - p) dp in
    if negb (isfinite q) then Err ValueError
    else
      let n := (ceilZ q + 1)%Z in
      if (n <? 0)%Z then Err ValueError
      else
        let p_ := linspace p Pk1 (Z.to_nat n) in
        let! y_ := mapM (fun pi =>
          let! Pk := get P k in
          let! cs := get Sppc k in
          let! ct := get Tppc k in
          let dx := pi - Pk in
          let! r := eos_s_t (pval dx cs 0) (pval dx ct 0) pi in
          Ok (fst r * pval dx cs 1 + snd r * pval dx ct 1)) p_ in
        Ok (trapz y_ p_).

  (** label.py:191-229 *)
  Definition _int_dlrpd_dz (p1 p0 : F) (P : list F) (Sppc Tppc : list (list F)) (dp : F)
      (eos_s_t : F -> F -> F -> res (F * F)) : res F :=
    let! Pfirst := get P 0 in
    let! Plast := get P (length P - 1) in
    if isnan (p0 + p1 + Pfirst) || (p0 <? Pfirst) || (Plast <? p0) || (p1 <? Pfirst) || (Plast <? p1)
    then Ok nan
    else
      let '(sgn, p1, p0) := if p1 >=? p0 then (lit 1 0, p1, p0) else (lit (-1) 0, p0, p1) in
      let k0 := Nat.max 1 (searchsorted P p0) in
      let k1 := Nat.max 1 (searchsorted P p1) in
      let! d1 := _int_x_k p0 (k0 - 1) dp P Sppc Tppc eos_s_t in
      let! d1 := for_range k0 k1 (fun k d1 =>
        let! Pk := get P k in
        let! x := _int_x_k Pk k dp P Sppc Tppc eos_s_t in
        Ok (d1 + x)) d1 in
      let! x := _int_x_k p1 (k1 - 1) dp P Sppc Tppc eos_s_t in
      Ok ((d1 - x) * sgn).

  (** label.py:184-187 *)
  Definition pot_dens_1 (p0 p_ref : F) (P : list F) (Sppc Tppc : list (list F))
      (eos : F -> F -> F -> res F) : res F :=
    let! st := ppval_1_two p0 P Sppc Tppc 0 in
    eos (fst st) (snd st) p_ref.

  (** label.py:178-180 *)
  Definition _veronis_affine (p1 p0 d0 b : F) (P : list F) (Sppc Tppc : list (list F)) (dp : F)
      (eos_s_t : F -> F -> F -> res (F * F)) : res F :=
    let! x := _int_dlrpd_dz p1 p0 P Sppc Tppc dp eos_s_t in
    Ok (d0 + b * x).

  (** label.py:170-174 *)
  Definition _veronis (p1 p0 p_ref b : F) (P : list F) (Sppc Tppc : list (list F)) (dp : F)
      (eos : F -> F -> F -> res F) (eos_s_t : F -> F -> F -> res (F * F)) : res F :=
    let! d0 := pot_dens_1 p0 p_ref P Sppc Tppc eos in
    _veronis_affine p1 p0 d0 b P Sppc Tppc dp eos_s_t.

  (** the functions that make_pp(interp, kind="1", out="coeffs", nans=True) can return *)
  Definition ppc_named (junk : F) (name : string) : list F -> list F -> res (list (list F)) :=
    if String.eqb name "linear_coeffs_1" then linear_coeffs_1 junk
    else if String.eqb name "pchip_coeffs_1" then pchip_coeffs_1 junk
    else fun _ _ => Err NameError.

  (** label.py:8-166.  eos is called with numbers (a zero divisor raises), eos_s_t with arrays
      (it does not): hence the two divisions.  A function of the wrong kind does not compile. *)
  Definition veronis (junk : F) (p1 : F) (S T P : list F) (p0 : option F) (p_ref b dp : F)
      (interp : string) (eos : arg) (grav rho_c : option F) : res F :=
    let! fs := _process_eos sdiv eos grav rho_c true in
    let! fa := _process_eos adiv eos grav rho_c true in
    let! name := make_pp interp "1" "coeffs" true 1 in
    let! Sppc := ppc_named junk name P S in
    let! Tppc := ppc_named junk name P T in
    let! p0 := match p0 with
               | Some x => Ok x
               | None => match P with x :: _ => Ok x | [] => Err IndexError end
               end in
    match fst fs, snd fa with
    | F1 f, Some (F2 g) => _veronis p1 p0 p_ref b P Sppc Tppc dp f g
    | _, _ => Err TypeError
    end.
End LABEL.
