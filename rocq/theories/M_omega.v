(** * Model of neutralocean/surface/omega.py: omega_surf (24-474)

    The casts are those after _process_casts and flattening (235-237), pin_c is
    the flat index (239-241), surf_shape is only needed for checking p_init.
    A dictionary as p_ml stands for the array computed from it
    (mixed_layer.py).  Timers and printing are not modelled.  interp_two is the
    interpolation of one cast.  The solvers of scipy are arguments (M_matsolve),
    junk_* is the content of np.empty.  The result also contains, as ghost
    output, the record of each iteration. *)
From Coq Require Import Ascii String ZArith Bool List.
From Verif Require Import Num Res Arr M_graph M_lib M_ppinterp M_traj M_bfs M_ntp M_matsolve M_vertsolve.
Import ListNotations.
Local Open Scope num_scope.

(** str.lower() for ASCII *)
Definition lower_ascii (c : ascii) : ascii :=
  let n := nat_of_ascii c in if Nat.leb 65 n && Nat.leb n 90 then ascii_of_nat (n + 32) else c.
Fixpoint lower (s : string) : string :=
  match s with EmptyString => EmptyString | String c r => String (lower_ascii c) (lower r) end.

(** np.sort *)
Fixpoint insert_nat (x : nat) (l : list nat) : list nat :=
  match l with [] => [x] | y :: r => if Nat.leb x y then x :: l else y :: insert_nat x r end.
Definition sort_nat (l : list nat) : list nat := fold_right insert_nat [] l.

Section Omega.
  Context {F : Type} {Nm : Num F}.
  Notation bottle := (F * F * F)%type.
  Notation column := (list F * list F * list F)%type.
  Notation matrix := (nat -> nat -> F).

  Record options := mkOptions {
    o_diags : bool;
    ITER_MIN : Z; ITER_MAX : Z; ITER_START_WETTING : Z; ITER_STOP_WETTING : Z;
    ITER_WET_PERIM : nat;                       (* a negative number acts like 0 *)
    TOL_P_SOLVER : F; TOL_LRPD_MAV : F; TOL_P_CHANGE_RMS : F;
    OMEGA_FORMULATION : string }.

  (** p_init: np.isscalar, an array (shape, values), anything else *)
  Inductive pinit := IScalar (p : F) | IArray (sh : list nat) (p : list F) | IOther.

  (** what one iteration did *)
  Record iteration := mkIteration {
    i_in : list bottle;         (* surface after removing the mixed layer *)
    i_new : nat;                (* n_newly_wet *)
    i_wet : list bottle;        (* surface after the search *)
    i_nodes : list nat;         (* qu *)
    i_phi : list F;             (* ϕ *)
    i_out : list bottle;        (* surface at the end *)
    i_phi_mav : F;
    i_dp_rms : F }.

  Record diagnostics := mkDiag {
    d_e_MAV : list F; d_e_RMS : list F;
    d_phi_MAV : list F; d_dp_MAV : list F; d_dp_RMS : list F; d_dp_Linf : list F;
    d_n_wet : list nat; d_n_newly_wet : list nat }.

  Definition n_finite (stp : list bottle) : nat := length (filter (fun x => isfinite (snd x)) stp).
  Definition nanmean (l : list F) : F := nansum l / of_nat (length (filter (fun x => negb (isnan x)) l)).
  Definition nanmax (l : list F) : F := fold_left (fun m x => if isnan m then x else if m <? x then x else m) l nan.

  Variable eos : F -> F -> F -> res F.
  Variable eos_s_t : F -> F -> F -> res (F * F).
  Variable ppc_fn : list F -> list F -> res (list (list F)).
  Variable interp_two : F -> list F -> list F -> list F -> res (F * F).
  Variable spsolve : nat -> matrix -> list F -> list F.
  Variable lsqr : nat -> nat -> matrix -> list F -> list F.
  Variable fuel : nat.
  Variable loop_fuel : nat.
  Variable junk : Z -> list nat.                 (* for the search in iteration iter_ *)
  Variable junk_p junk_i : list nat.

  Variable surf_shape : list nat.
  Variable casts : list column.
  Variables (g_edges : option (list (nat * nat))) (g_dist g_distperp : option (@geom F)).
  Variable pin_c : nat.
  Variable o : options.

  (** 383: p[p < p_ml] = nan *)
  Definition remove_ml (p_ml : list F) (stp : list bottle) : res (list bottle) :=
    let! ml := if Nat.eqb (length p_ml) (length stp) then Ok p_ml
               else match p_ml with [x] => Ok (repeat x (length stp)) | _ => Err ValueError end in
    Ok (map (fun '((s, t, p), ml) => if p <? ml then (s, t, nan) else (s, t, p)) (combine stp ml)).

  (** np.nonzero(np.isfinite(p))[0] *)
  Definition finite_nodes (stp : list bottle) : list nat :=
    filter (fun n => match nth_error stp n with Some x => isfinite (snd x) | None => false end) (seq 0 (length stp)).

  (** 387-395 *)
  Definition search (p_ml : list F) (indptr indices : list nat) (iter_ : Z) (stp : list bottle)
    : res (nat * list bottle * list nat) :=
    if (ITER_START_WETTING o <=? iter_)%Z && (iter_ <=? ITER_STOP_WETTING o)%Z then
      let! r := bfs_conncomp1_wet_perim eos ppc_fn fuel casts (TOL_P_SOLVER o) p_ml loop_fuel (junk iter_)
                  indptr indices pin_c (ITER_WET_PERIM o) stp in
      Ok (fst r, snd r, finite_nodes (snd r))
    else
      let! r := bfs_conncomp1 loop_fuel (junk iter_) indptr indices pin_c (map (fun x => isfinite (snd x)) stp) in
      Ok (0%nat, stp, sort_nat (fst r)).

  (** 274-282 *)
  Inductive formulation := FPoisson | FGradient.
  Definition global_solver (f : formulation) :=
    match f with
    | FPoisson => matsolve_poisson eos_s_t spsolve
    | FGradient => matsolve_gradient eos_s_t lsqr
    end.

  (** p - p_old *)
  Definition p_change (stp stp' : list bottle) : list F :=
    map (fun ab => snd (fst ab) - snd (snd ab)) (combine stp' stp).

  (** 379-421: one iteration, from the surface at the end of the previous one;
      dp_rms is the previous value of Δp_RMS *)
  Definition one_iteration (f : formulation) (distratio : geom) (edges : list (nat * nat)) (p_ml : list F)
    (indptr indices : list nat) (pin_p : F) (iter_ : Z) (stp : list bottle) (dp_rms : F) : res iteration :=
    let! stp0 := if (1 <? iter_)%Z then remove_ml p_ml stp else Ok stp in
    let! r := search p_ml indptr indices iter_ stp0 in
    let '(new, stp1, qu) := r in
    let! ϕ := global_solver f stp1 edges distratio qu pin_c in
    let! stp2 := vertsolve_omega eos ppc_fn fuel (TOL_P_SOLVER o) stp1 casts ϕ in
    let! x := np_get stp2 pin_c in
    let! stp3 := np_set stp2 pin_c (fst (fst x), snd (fst x), pin_p) in
    let ϕ_mav := nanmean (map fabs ϕ) in
    let dp_rms :=
      if o_diags o || (TOL_P_CHANGE_RMS o >? lit 0 0)
      then fsqrt (nanmean (map (fun x => x * x) (p_change stp1 stp3)))
      else dp_rms in
    Ok (mkIteration stp0 new stp1 qu ϕ stp3 ϕ_mav dp_rms).

  (** 289-303 *)
  Definition empty_diags : diagnostics :=
    let z := repeat (lit 0 0) (Z.to_nat (ITER_MAX o + 1)) in
    let z' := repeat 0%nat (Z.to_nat (ITER_MAX o + 1)) in
    mkDiag z z z z z z z' z'.

  Notation grid := (GDict g_edges g_dist g_distperp).

  (** 423-445 *)
  Definition record (d : diagnostics) (iter_ : nat) (r : iteration) : res diagnostics :=
    let dp := map fabs (p_change (i_wet r) (i_out r)) in
    let! phi_MAV := np_set (d_phi_MAV d) iter_ (i_phi_mav r) in
    let! dp_MAV := np_set (d_dp_MAV d) iter_ (nanmean dp) in
    let! dp_RMS := np_set (d_dp_RMS d) iter_ (i_dp_rms r) in
    let! dp_Linf := np_set (d_dp_Linf d) iter_ (nanmax dp) in
    let! n_newly_wet := np_set (d_n_newly_wet d) iter_ (i_new r) in
    let! e := ntp_epsilon_errors_norms eos_s_t (i_out r) grid in
    let! e_RMS := np_set (d_e_RMS d) iter_ (fst e) in
    let! e_MAV := np_set (d_e_MAV d) iter_ (snd e) in
    let! n_wet := np_set (d_n_wet d) iter_ (n_finite (i_out r)) in
    Ok (mkDiag e_MAV e_RMS phi_MAV dp_MAV dp_RMS dp_Linf n_wet n_newly_wet).

  (** 378-461: k more iterations, the next of which is number iter_ *)
  Fixpoint iterate (f : formulation) (distratio : geom) (edges : list (nat * nat)) (p_ml : list F)
    (indptr indices : list nat) (pin_p tol_lrpd : F) (k : nat) (iter_ : nat) (stp : list bottle) (dp_rms : F)
    (d : diagnostics) : res (list iteration * list bottle * diagnostics) :=
    match k with
    | O => Ok ([], stp, d)
    | S k =>
        let! r := one_iteration f distratio edges p_ml indptr indices pin_p (Z.of_nat iter_) stp dp_rms in
        let! d := if o_diags o then record d iter_ r else Ok d in
        if ((i_phi_mav r <? tol_lrpd) || (i_dp_rms r <? TOL_P_CHANGE_RMS o)) && (ITER_MIN o <=? Z.of_nat iter_)%Z
        then Ok ([r], i_out r, d)
        else
          let! x := iterate f distratio edges p_ml indptr indices pin_p tol_lrpd k (S iter_) (i_out r) (i_dp_rms r) d in
          Ok (r :: fst (fst x), snd (fst x), snd x)
    end.

  (** 308-337: the initial surface and the pressure at the pin *)
  Definition initial (p_init : pinit) (p_ml : list F) (indptr indices : list nat) : res (list bottle * F) :=
    match p_init with
    | IScalar pin_p =>
        let! c := np_get casts pin_c in
        let '(Sm, Tm, Pm) := c in
        let! st := interp_two pin_p Pm Sm Tm in
        let! stp := np_set (repeat (nan, nan, nan) (length casts)) pin_c (fst st, snd st, pin_p) in
        let! r := bfs_conncomp1_wet_perim eos ppc_fn fuel casts (TOL_P_SOLVER o) p_ml loop_fuel (junk 0)
                    indptr indices pin_c (ITER_WET_PERIM o) stp in
        Ok (snd r, pin_p)
    | IArray sh p =>
        if list_eq_dec Nat.eq_dec sh surf_shape then
          let! pin_p := np_get p pin_c in
          let! stp := mapM (fun pc => let '(p, (Sm, Tm, Pm)) := pc in
                                      let! st := interp_two p Pm Sm Tm in Ok (fst st, snd st, p)) (combine p casts) in
          Ok (stp, pin_p)
        else Err ValueError
    | IOther => Err TypeError
    end.

  (** 465-466; iter_ is not defined if there was no iteration *)
  Definition trim (d : diagnostics) (iters : nat) : res diagnostics :=
    match iters with
    | O => Err NameError
    | _ => Ok (mkDiag (firstn (iters + 1) (d_e_MAV d)) (firstn (iters + 1) (d_e_RMS d))
                 (firstn iters (d_phi_MAV d)) (firstn iters (d_dp_MAV d)) (firstn iters (d_dp_RMS d)) (firstn iters (d_dp_Linf d))
                 (firstn iters (d_n_wet d)) (firstn iters (d_n_newly_wet d)))
    end.

  Definition omega_surf (p_init : pinit) (p_ml : option (list F))
    : res (list bottle * option diagnostics * list iteration) :=
    let! distperp := key g_distperp in
    let! dist := key g_dist in
    let! distratio := gdiv distperp dist in
    let p_ml := match p_ml with Some l => l | None => repeat ninf (length casts) end in
    let! edges := key g_edges in
    let! c := edges_to_csr junk_p junk_i edges (Some (length casts)) in
    let (indptr, indices) := c in
    let! fd :=
      if String.eqb (lower (OMEGA_FORMULATION o)) "poisson" then Ok (FPoisson, distratio)
      else if String.eqb (lower (OMEGA_FORMULATION o)) "gradient"
      then Ok (FGradient, match distratio with Sc x => Sc (fsqrt x) | Ar l => Ar (map fsqrt l) end)
      else Err ValueError in
    let (f, distratio) := fd in
    let! v := eos (lit 345 (-1)) (lit 3 0) (lit 1000 0) in
    let tol_lrpd := if v <? lit 1 0 then TOL_LRPD_MAV o / lit 1 6 else TOL_LRPD_MAV o in
    let! _ := if o_diags o && (ITER_MAX o + 1 <? 0)%Z then Err ValueError else Ok tt in
    let! sp := initial p_init p_ml indptr indices in
    let (stp, pin_p) := sp in
    let! x := np_get stp pin_c in
    if isnan (fst (fst x)) then Err RuntimeError
    else
      let stp := map (fun x => if isnan (fst (fst x)) then (fst (fst x), snd (fst x), nan) else x) stp in
      let! d :=
        if o_diags o then
          let! e := ntp_epsilon_errors_norms eos_s_t stp grid in
          let! e_RMS := np_set (d_e_RMS empty_diags) 0 (fst e) in
          let! e_MAV := np_set (d_e_MAV empty_diags) 0 (snd e) in
          let! n_wet := np_set (d_n_wet empty_diags) 0 (n_finite stp) in
          Ok (mkDiag e_MAV e_RMS (d_phi_MAV empty_diags) (d_dp_MAV empty_diags) (d_dp_RMS empty_diags) (d_dp_Linf empty_diags)
                n_wet (d_n_newly_wet empty_diags))
        else Ok empty_diags in
      let! r := iterate f distratio edges p_ml indptr indices pin_p tol_lrpd (Z.to_nat (ITER_MAX o)) 1 stp (lit 0 0) d in
      let '(its, stp, d) := r in
      if o_diags o then let! d := trim d (length its) in Ok (stp, Some d, its)
      else Ok (stp, None, its).
End Omega.
