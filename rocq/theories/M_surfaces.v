(** * Model of the entry points potential_surf, anomaly_surf (surface/isopycnal.py) and
    omega_surf (surface/omega.py): their keyword arguments, the conversion of the data to
    columns, and the conversion of the results back

    Timers and printing are not modelled, nor the name and attributes of DataArrays.  S, T
    and (once it has been broadcast) P of different shapes are refused here, while the code
    does not compare them.  An argument vert_dim=None is not represented. *)
From Coq Require Import String ZArith Bool List.
From Verif Require Import Num Res Arr Nd M_graph M_lib M_numpy M_ppinterp M_make_pp M_eos_base M_eostools M_mixed_layer M_ntp M_matsolve M_vertsolve M_omega.
Import ListNotations.
Local Open Scope num_scope.

Section Surfaces.
  Context {F : Type} {Nm : Num F}.
  Notation bottle := (F * F * F)%type.
  Notation cast3 := (list F * list F * list F)%type.

  (** the functions that the names returned by make_pp stand for, on one cast;
      junk is the content of np.empty *)
  Definition ppc_named (junk : F) (name : string) : list F -> list F -> res (list (list F)) :=
    if (name =? "linear_coeffs_1")%string then linear_coeffs_1 junk
    else if (name =? "pchip_coeffs_1_nonan")%string then pchip_coeffs_1_nonan junk
    else fun _ _ => Err TypeError.
  Definition interp_two_named (name : string) : F -> list F -> list F -> list F -> res (F * F) :=
    if (name =? "linear_interp_two")%string then fun p P S T => linear_interp_1_two p P S T 0
    else if (name =? "pchip_interp_two")%string then fun p P S T => pchip_interp_1_two p P S T 0
    else fun _ _ _ _ => Err TypeError.

  (** a function called with three numbers, its result used as one number, or two *)
  Definition one_value (f : fn) : F -> F -> F -> res F := vectorized f.
  Definition two_values (f : option fn) : F -> F -> F -> res (F * F) :=
    match f with Some (F2 g) => g | _ => fun _ _ _ => Err TypeError end.

  (** [pin_cast]: None, a dict, int or tuple, a list *)
  Inductive pinarg := ANone | APin (p : @pin F) | AList (l : list Z).

  (** lib.py:345-364; index gives the labels of each dimension of S; an ndarray has no get_index *)
  Definition pin_of (a : pinarg) (S : @data F) (index : string -> option (list F)) : res pincast :=
    match a with
    | ANone => Ok CNone
    | AList l => Ok (CList l)
    | APin p =>
        let! _ := match p, dims S with
                  | PinDict (_ :: _), None => Err AttributeError
                  | _, _ => Ok tt
                  end in
        let! t := process_pin_cast p index in Ok (CTuple t)
    end.

  (** the arrays after _process_casts as an array of columns, and the number of levels *)
  Definition columns_of (stp : nd F * nd F * nd F) : res (nd cast3 * nat) :=
    let '(s, t, p) := stp in
    if list_eq_dec Nat.eq_dec (shape s) (shape t) then
      if list_eq_dec Nat.eq_dec (shape s) (shape p) then
        match rev (shape s) with
        | [] => Err IndexError
        | n :: rh => Ok (build (rev rh) (fun h => (column s n h, column t n h, column p n h)), n)
        end
      else Err ValueError
    else Err ValueError.

  (** the three arrays with the values of the surface *)
  Definition s_of (sh : list nat) (x : list bottle) : nd F := mk_nd sh (map (fun b => fst (fst b)) x).
  Definition t_of (sh : list nat) (x : list bottle) : nd F := mk_nd sh (map (fun b => snd (fst b)) x).
  Definition p_of (sh : list nat) (x : list bottle) : nd F := mk_nd sh (map (fun b => snd b) x).

  (** lib.py:221-238: the containers of s, t and p; that of p is a copy of that of s *)
  Definition xrs_in (S T : @data F) (v : vdim) :
    res (option (list string * list nat) * option (list string * list nat) * option (list string * list nat)) :=
    let! sx := xr_in S v in
    let! tx := xr_in T v in
    Ok (sx, tx, sx).

  (** ** isopycnal.py *)

  (** keyword arguments (isopycnal.py:336-348) *)
  Record iso_args := mkIso {
    k_ref : @refarg F; k_isoval : option F; k_pin_cast : pinarg; k_pin_p : @pinp F;
    k_vert_dim : vdim; k_tol : F; k_eos : @arg F; k_rho_c : option F; k_grav : option F;
    k_diags : bool; k_grid : @gridarg F; k_interp : string }.
  (** their defaults *)
  Definition iso_defaults : iso_args :=
    mkIso RNone None ANone PNone (VInt (-1)) (lit 1 (-4)) (AStr "gsw") None None true GOther "linear".

  Record iso_diags := mkIsoDiags { d_ref : @refarg F; d_isoval : F; d_errors : option (F * F * nat) }.

  (** grid is a dict with the key "edges" *)
  Definition has_edges (g : @gridarg F) : bool := match g with GDict (Some _) _ _ => true | _ => false end.

  (** isopycnal.py:330-411 *)
  Definition isopycnal_surf (junk : F) (fuel : nat) (a : ans) (S T P : @data F) (index : string -> option (list F)) (k : iso_args)
    : res (@data F * @data F * @data F * iso_diags) :=
    let! ppc := make_pp (k_interp k) "1" "coeffs" false 1 in
    let! xrs := xrs_in S T (k_vert_dim k) in
    let '(sx, tx, px) := xrs in
    let! pin_cast := pin_of (k_pin_cast k) S index in
    let! stp := process_casts S T P (k_vert_dim k) in
    let! e := _process_eos sdiv (k_eos k) (k_grav k) (k_rho_c k) (k_diags k) in
    let! _ := if k_diags k && negb (has_edges (k_grid k)) then Err ValueError else Ok tt in
    let! c := columns_of stp in
    let (casts, nz) := c in
    let! r := isopycnal (one_value (fst e)) (ppc_named junk ppc) fuel a (k_ref k) (k_isoval k) pin_cast (k_pin_p k) nz casts (k_tol k) in
    let '(x, ref, isoval) := r in
    let! errors :=
      if k_diags k then
        let! ee := ntp_epsilon_errors_norms (two_values (snd e)) x (k_grid k) in
        Ok (Some (fst ee, snd ee, n_finite x))
      else Ok None in
    let! s := xr_out (s_of (shape casts) x) sx in
    let! t := xr_out (t_of (shape casts) x) tx in
    let! p := xr_out (p_of (shape casts) x) px in
    Ok (s, t, p, mkIsoDiags ref isoval errors).

  (** isopycnal.py:256, 327 *)
  Definition potential_surf junk fuel := isopycnal_surf junk fuel Potential.
  Definition anomaly_surf junk fuel := isopycnal_surf junk fuel Anomaly.

  (** ** omega.py *)

  (** np.ravel_multi_index(t, sh) *)
  Fixpoint ravel_multi_index (t : list Z) (sh : list nat) : res nat :=
    match t, sh with
    | [], [] => Ok 0%nat
    | i :: t, n :: sh =>
        if (0 <=? i)%Z && (i <? Z.of_nat n)%Z then
          let! r := ravel_multi_index t sh in Ok (Z.to_nat i * prod sh + r)%nat
        else Err ValueError
    | _, _ => Err ValueError
    end.

  (** p_init: np.isscalar, an ndarray or DataArray, anything else *)
  Inductive initarg := InitScalar (p : F) | InitArray (p : @data F) | InitOther.
  (** p_ml: None, an array, a dict of keyword arguments of mixed_layer, each with a default (mixed_layer.py:13-19);
      giving None for grav or rho_c is the same as not giving it *)
  Inductive mlarg :=
  | MNone
  | MArray (p : nd F)
  | MDict (grav rho_c : option F) (pot_dens_diff ref_p : option F) (bottle_index : option Z) (interp : option string) (vert_dim : option vdim).
  Definition or_default {A} (o : option A) (x : A) : A := match o with Some y => y | None => x end.

  Record omega_args := mkOmega {
    w_vert_dim : vdim; w_p_ml : mlarg; w_eos : @arg F; w_rho_c : option F; w_grav : option F; w_interp : string;
    w_options : @options F }.

  (** np.iinfo(int).max, the default of ITER_WET_PERIM, is larger than any number of
      casts, so that it acts like no limit; here it is an argument *)
  Definition omega_defaults (maxint : nat) : omega_args :=
    mkOmega (VInt (-1)) MNone (AStr "gsw") None None "linear"
      (mkOptions true 1 10 1 5 maxint (lit 1 (-4)) (lit 1 (-7)) (lit 0 0) "poisson").

  (** np.reshape(X, (N, -1)) of an array with n levels *)
  Definition flat_casts (N n : nat) (a : nd F) : @data F := mk_data (mk_nd [N; n] (elems a)) None [].

  Variable spsolve : nat -> (nat -> nat -> F) -> list F -> list F.
  Variable lsqr : nat -> nat -> (nat -> nat -> F) -> list F -> list F.

  (** omega.py:199-474; the last component is the record of the iterations (see M_omega) *)
  Definition omega_surf_pub (junk0 : F) (fuel loop_fuel : nat) (junk : Z -> list nat) (junk_p junk_i : list nat)
      (S T P : @data F) (grid : @gridarg F) (pin_cast : pinarg) (p_init : initarg)
      (index : string -> option (list F)) (k : omega_args)
    : res (@data F * @data F * @data F * option (@diagnostics F) * list (@iteration F)) :=
    let! ppc := make_pp (w_interp k) "1" "coeffs" false 1 in
    let! itp := make_pp (w_interp k) "u" "interp" true 2 in
    let! xrs := xrs_in S T (w_vert_dim k) in
    let '(sx, tx, px) := xrs in
    let! pin := pin_of pin_cast S index in
    let! stp := process_casts S T P (w_vert_dim k) in
    let! e := _process_eos sdiv (w_eos k) (w_grav k) (w_rho_c k) true in
    let! c := columns_of stp in
    let (casts, nz) := c in
    (* np.prod(()) is a float *)
    let! _ := match shape casts with [] => Err TypeError | _ => Ok tt end in
    let N := length (elems casts) in
    let! pin_c := match pin with
                  | CTuple t | CList t => ravel_multi_index t (shape casts)
                  | CNone => Err TypeError
                  end in
    match grid with
    | GDict g_edges g_dist g_distperp =>
        let! distperp := key g_distperp in
        let! dist := key g_dist in
        let! _ := gdiv distperp dist in
        let! p_ml :=
          match w_p_ml k with
          | MNone => Ok None
          | MArray a => Ok (Some (elems a))
          | MDict grav rho_c d r b i v =>
              let '(s, t, p) := stp in
              let! ml := mixed_layer (flat_casts N nz s) (flat_casts N nz t) (flat_casts N nz p)
                           (AFun (fst e)) grav rho_c (or_default d (lit 3 (-2))) (or_default r (lit 100 0)) (or_default b 1%Z)
                           (or_default i "linear"%string) (or_default v (VInt (-1))) in
              Ok (Some (elems ml))
          end in
        let init := match p_init with
                    | InitScalar p => IScalar p
                    | InitArray d => IArray (shape (arr d)) (elems (arr d))
                    | InitOther => IOther
                    end in
        let! r := omega_surf (one_value (fst e)) (two_values (snd e)) (ppc_named junk0 ppc) (interp_two_named itp)
                    spsolve lsqr fuel loop_fuel junk junk_p junk_i (shape casts) (elems casts)
                    g_edges g_dist g_distperp pin_c (w_options k) init p_ml in
        let '(x, d, its) := r in
        let! s := xr_out (s_of (shape casts) x) sx in
        let! t := xr_out (t_of (shape casts) x) tx in
        let! p := xr_out (p_of (shape casts) x) px in
        Ok (s, t, p, d, its)
    | _ => Err TypeError
    end.
End Surfaces.
