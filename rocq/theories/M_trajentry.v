(** * Model of the entry points ntp_bottle_to_cast and neutral_trajectory (traj.py): their
    keyword arguments and the conversion of the data to columns

    S, T and (once it has been broadcast) P of different shapes are refused here, while the
    code does not compare them. *)
From Coq Require Import String ZArith Bool List.
From Verif Require Import Num Res Arr Nd M_lib M_ppinterp M_make_pp M_eos_base M_eostools M_traj M_surfaces.
Import ListNotations.
Local Open Scope num_scope.

Section Entry.
  Context {F : Type} {N : Num F}.
  Notation bottle := (F * F * F)%type.

  (** keyword arguments (traj.py:31-35, 203-207) *)
  Record traj_args := mkTraj { t_tol : F; t_interp : string; t_eos : @arg F; t_grav : option F; t_rho_c : option F }.
  (** their defaults *)
  Definition traj_defaults : traj_args := mkTraj (lit 1 (-4)) "linear" (AStr "gsw") None None.

  (** traj.py:101-108; junk is the content of np.empty *)
  Definition ntp_bottle_to_cast_kw (junk : F) (fuel : nat) (sB tB pB : F) (S T P : list F) (k : traj_args) : res bottle :=
    let! f := make_eos sdiv (t_eos k) (t_grav k) (t_rho_c k) in
    let! ppc := make_pp (t_interp k) "1" "coeffs" false 1 in
    ntp_bottle_to_cast_pub (one_value f) (ppc_named junk ppc) fuel sB tB pB S T P (t_tol k).

  (** traj.py:256-304; a shape of other than two numbers cannot be unpacked *)
  Definition neutral_trajectory_kw (junk : F) (fuel : nat) (S T P : @data F) (p0 : F) (vert_dim : vdim) (k : traj_args)
    : res (list F * list F * list F) :=
    let! f := make_eos sdiv (t_eos k) (t_grav k) (t_rho_c k) in
    let! ppc := make_pp (t_interp k) "1" "coeffs" false 1 in
    let! stp := process_casts S T P vert_dim in
    match shape (fst (fst stp)) with
    | [nc; nk] =>
        let! c := columns_of stp in
        let! x := neutral_trajectory (one_value f) (ppc_named junk ppc) fuel (elems (fst c)) p0 (t_tol k) in
        Ok (map (fun b => fst (fst b)) x, map (fun b => snd (fst b)) x, map snd x)
    | _ => Err ValueError
    end.
End Entry.
