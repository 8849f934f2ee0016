(** * Model of neutralocean/traj.py *)
From Coq Require Import ZArith Bool List.
From Verif Require Import Num Res Arr M_fzero M_ppinterp.
Import ListNotations.
Local Open Scope num_scope.

Section Traj.
  Context {F : Type} {N : Num F}.

  (** equation of state; may raise *)
  Variable eos : F -> F -> F -> res F.
  (** piecewise polynomial coefficients of data without NaN *)
  Variable ppc_fn : list F -> list F -> res (list (list F)).
  (** fuel of each of the two loops in fzero.py *)
  Variable fuel : nat.

  (** traj.py:14-21 *)
  Definition pot_dens_diff (sB tB pB : F) (P : list F) (Sppc Tppc : list (list F)) (p : F) : res F :=
    let! st := ppval_1_nonan_two p P Sppc Tppc 0 in
    let (s, t) := st in
    let p_avg := (pB + p) * lit 5 (-1) in
    let! x := eos sB tB p_avg in
    let! y := eos s t p_avg in
    Ok (x - y).

  (** traj.py:163-194 *)
  Definition ntp_bottle_to_cast_ppc (tol_p sB tB pB : F) (P : list F) (Sppc Tppc : list (list F)) : res F :=
    let f := pot_dens_diff sB tB pB P Sppc Tppc in
    let! P0 := get P 0 in
    let! P1 := get P (length P - 1) in
    let! lu := guess_to_bounds f fuel pB P0 P1 in
    let (lb, ub) := lu in
    if isfinite lb then brent f fuel lb ub tol_p else Ok nan.

  (** traj.py:112-159 *)
  Definition ntp_bottle_to_cast (sB tB pB : F) (S T P : list F) (k K : nat) (tol_p : F) : res (F * F * F) :=
    if Nat.ltb 1 (K - k) then
      let P := slice P k K in
      let! Sppc := ppc_fn P (slice S k K) in
      let! Tppc := ppc_fn P (slice T k K) in
      let! p := ntp_bottle_to_cast_ppc tol_p sB tB pB P Sppc Tppc in
      if isfinite p then
        let! st := ppval_1_nonan_two p P Sppc Tppc 0 in
        let (s, t) := st in Ok (s, t, p)
      else Ok (nan, nan, p)
    else Ok (nan, nan, nan).

  (** traj.py:24-108, after the choice of eos and interpolant *)
  Definition ntp_bottle_to_cast_pub (sB tB pB : F) (S T P : list F) (tol_p : F) : res (F * F * F) :=
    let! kK := valid_range_1_two S P in
    let (k, K) := kK in
    ntp_bottle_to_cast sB tB pB S T P k K tol_p.

  (** traj.py:273-302: the loop over casts.  [prev] is the bottle on the
      previous cast (None for the first cast); the result is the list of bottles from the
      current cast on, up to the point where the loop is left. *)
  Fixpoint traj_loop (tol_p p0 : F) (prev : option (F * F * F)) (casts : list (list F * list F * list F))
    : res (list (F * F * F)) :=
    match casts with
    | [] => Ok []
    | (Sc, Tc, Pc) :: rest =>
        let! kK := valid_range_1_two Sc Pc in
        let (k, K) := kK in
        let! stp :=
          match prev with
          | None =>
              let! Sppc := ppc_fn (slice Pc k K) (slice Sc k K) in
              let! Tppc := ppc_fn (slice Pc k K) (slice Tc k K) in
              let! st := ppval_1_nonan_two p0 (slice Pc k K) Sppc Tppc 0 in
              let (s, t) := st in Ok (s, t, p0)
          | Some (s, t, p) => ntp_bottle_to_cast s t p Sc Tc Pc k K tol_p
          end in
        if isnan (snd stp) then Ok [stp]
        else
          let! r := traj_loop tol_p p0 (Some stp) rest in
          Ok (stp :: r)
    end.

  (** traj.py:256-304 after _process_casts: the casts of the sequence as triples
      of 1D arrays; entries never assigned keep the NaN of np.full. *)
  Definition neutral_trajectory (casts : list (list F * list F * list F)) (p0 tol_p : F) : res (list (F * F * F)) :=
    let! l := traj_loop tol_p p0 None casts in
    Ok (l ++ repeat (nan, nan, nan) (length casts - length l)).
End Traj.
