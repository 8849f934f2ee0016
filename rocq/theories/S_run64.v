(** * Specification vocabulary for omega_surf run in binary64 *)
From Coq Require Import ZArith Reals String List Bool SpecFloat.
From Verif Require Import Num XR SF Res Nd M_lib M_eostools M_mixed_layer M_ntp M_matsolve M_omega M_surfaces S_lib S_float S_interp S_domain S_graph S_traj S_vertsolve S_wet S_ntp S_matsolve S_omega S_vert64 S_ntp64 S_omega64 S_entry64 S_system64.
Import ListNotations.
Local Open Scope R_scope.

(** the solvers return as many binary64 numbers, infinities or NaN as there are unknowns *)
Definition solvers64 (spsolve : nat -> (nat -> nat -> f64) -> list f64 -> list f64)
    (lsqr : nat -> nat -> (nat -> nat -> f64) -> list f64 -> list f64) : Prop :=
  (forall N A r, length (spsolve N A r) = N /\ Forall float64 (spsolve N A r))
  /\ forall M N A r, length (lsqr M N A r) = N /\ Forall float64 (lsqr M N A r).

(** the bottle x is water w of column c, or has no salinity *)
Definition water_of rel (e : R) (c : column) (x : bottle64) (w : option (R * R * R)) : Prop :=
  match w with
  | Some w => exists vs vt, sampled rel e c x vs vt /\ w = (vs, vt, fval (snd x))
  | None => fst (fst x) = nan
  end.

(** the formulation asked for *)
Definition asked (o : @options f64) (f : formulation) : Prop :=
  match f with
  | FPoisson => spells "poisson" (OMEGA_FORMULATION o)
  | FGradient => spells "gradient" (OMEGA_FORMULATION o)
  end.

(** ϕ is what the solver makes of the linear problem for the nodes m of n, minus its value at the pin; [err] are the errors along
    edges, known up to b *)
Definition solved64 (spsolve : nat -> (nat -> nat -> f64) -> list f64 -> list f64) (lsqr : nat -> nat -> (nat -> nat -> f64) -> list f64 -> list f64)
    (f : formulation) (b : R) (l : list wedge) (err : nat -> nat -> option R) (n : nat) (m : list nat) (pin : nat) (ϕ : list f64) : Prop :=
  let N := length m in
  ((N <= 1)%nat -> placed n m (fun _ _ => Some zero) ϕ)
  /\ ((1 < N)%nat ->
      match f with
      | FPoisson => exists A r, poisson64 b l err m pin A r
          /\ placed n m (fun k i => if Nat.eqb i pin then Some zero else nth_error (spsolve N A r) k) ϕ
      | FGradient => exists A r k0 s, gradient64 b l err m pin A r
          /\ nth_error m k0 = Some pin /\ nth_error (lsqr (S (length l)) N A r) k0 = Some s
          /\ placed n m (fun k _ => option_map (fun x => sub x s) (nth_error (lsqr (S (length l)) N A r) k)) ϕ
      end).

(** the numbers in a list; the changes of pressure where both surfaces have one *)
Definition numbers64 (l : list f64) : list R := map fval (filter isfinite l).
Definition changes64 (x y : list bottle64) : list R :=
  flat_map (fun ab : bottle64 * bottle64 => if isfinite (snd (fst ab)) && isfinite (snd (snd ab)) then [fval (snd (snd ab)) - fval (snd (fst ab))] else []) (combine x y).
(** the errors of a mean m, and of a root r of a mean of squares, over n places *)
Definition mean_error (n : nat) (m : R) : R := (2 * INR n + 10) * powerRZ 2 (-53) * m + powerRZ 2 (-1000).
Definition rms_error (n : nat) (r : R) : R := (2 * INR n + 10) * powerRZ 2 (-53) * r + powerRZ 2 (-490).

(** what iteration number k does *)
Record step64 rel (rho vs vt : R -> R -> R -> R) (tol e d b pm : R) (casts : list column) (edges : list (nat * nat)) (weight : list R)
    (pin : nat) (pin_p : f64) (o : @options f64) spsolve lsqr (k : nat) (r : @iteration f64) : Prop := {
  s64_wet : surface64 rel e pm casts (i_wet r);
  s64_out : surface64 rel e pm casts (i_out r);
  (* casts are made wet; the part of the surface connected to the pin is kept, the rest is lost *)
  s64_new : wetting o (Z.of_nat k) -> exists D, NoDup D /\ i_new r = length D
    /\ (forall n, In n D -> ~ wet_at (i_in r) n /\ wetted64 rel rho tol e d pm casts (nbrs edges) (i_wet r) n)
    /\ (forall n, reach (edge_rel edges) (wet_at (i_in r)) pin n -> nth_error (i_wet r) n = nth_error (i_in r) n)
    /\ (forall n s t p, ~ reach (edge_rel edges) (wet_at (i_in r)) pin n -> ~ In n D -> nth_error (i_in r) n = Some (s, t, p) ->
          nth_error (i_wet r) n = Some (s, t, nan));
  s64_dry : ~ wetting o (Z.of_nat k) -> i_new r = 0%nat /\ i_wet r = i_in r;
  (* the search finds the wet casts connected to the pin *)
  s64_nodes : NoDup (i_nodes r) /\ forall n, In n (i_nodes r) <-> reach (edge_rel edges) (wet_at (i_wet r)) pin n;
  (* the perturbation of density *)
  s64_phi : exists w f, asked o f
    /\ (forall n, In n (i_nodes r) -> exists x c, nth_error (i_wet r) n = Some x /\ nth_error casts n = Some c /\ water_of rel e c x (w n))
    /\ solved64 spsolve lsqr f b (inner (i_nodes r) edges weight) (fun i j => edge_error vs vt (w i) (w j)) (length casts) (i_nodes r) pin (i_phi r);
  (* the surface moves vertically by the perturbation *)
  s64_move : forall n x c ϕ y, n <> pin -> nth_error (i_wet r) n = Some x -> nth_error casts n = Some c -> nth_error (i_phi r) n = Some ϕ ->
    nth_error (i_out r) n = Some y -> moved64 rel rho pm tol e d c x ϕ y;
  (* the bottle at the pin stays, but loses its water if the perturbation there is not a number *)
  s64_pin : exists s t ϕ, nth_error (i_in r) pin = Some (s, t, pin_p) /\ nth_error (i_wet r) pin = Some (s, t, pin_p) /\ nth_error (i_phi r) pin = Some ϕ
    /\ ((finite64 ϕ /\ fval ϕ = 0 /\ nth_error (i_out r) pin = Some (s, t, pin_p))
        \/ (isfinite ϕ = false /\ nth_error (i_out r) pin = Some (nan, nan, pin_p)));
  (* the mean of the magnitudes of the perturbation; the root mean square of the changes of pressure *)
  s64_phi_mav : INR (length casts) <= powerRZ 2 31 ->
    (numbers64 (i_phi r) <> [] -> (forall u, In u (i_phi r) -> u = nan \/ finite64 u /\ Rabs (fval u) <= powerRZ 2 800) ->
       let m := mean (map Rabs (numbers64 (i_phi r))) in S_float.within (i_phi_mav r) m (mean_error (length casts) m))
    /\ ((forall u, In u (i_phi r) -> u = nan) -> i_phi_mav r = nan);
  s64_dp_rms : INR (length casts) <= powerRZ 2 31 -> o_diags o = true \/ ltb zero (TOL_P_CHANGE_RMS o) = true ->
    let m := sqrt (mean (map (fun x => x * x) (changes64 (i_wet r) (i_out r)))) in S_float.within (i_dp_rms r) m (rms_error (length casts) m) }.

(** the norms of the neutrality errors of the surface x *)
Definition norms64_of rel (e b : R) (vs vt : R -> R -> R -> R) (casts : list column) (edges : list (nat * nat)) (ds ws : list R)
    (x : list bottle64) (rms mav : f64) : Prop :=
  exists w, (forall n y c, nth_error x n = Some y -> nth_error casts n = Some c -> water_of rel e c y (nth n w None))
    /\ length w = length x
    /\ norms_hold b (length edges) (wet (edge_errors vs vt w edges) ds ws) rms mav.

(** p_init puts the surface at the pressure pin_p at the pin *)
Definition starts_at64 (surf_shape : list nat) (N : nat) (pin : nat) (pin_p : f64) (p_init : @pinit f64) : Prop :=
  match p_init with
  | IScalar p => p = pin_p
  | IArray sh p => sh = surf_shape /\ length p = N /\ nth_error p pin = Some pin_p /\ Forall float64 p
  | IOther => False
  end.
(** the mixed layer pressures of p_ml, if given, are one for each cast and the pressure at the pin is not above them *)
Definition below_mixed_layer64 (N : nat) (pin : nat) (pin_p : f64) (p_ml : option (list f64)) : Prop :=
  match p_ml with
  | Some ml => length ml = N /\ forall m, nth_error ml pin = Some m -> ltb pin_p m = false
  | None => True
  end.

(** x is the initial surface: where p_init gives a pressure of the column there is water of the column at that pressure, elsewhere nothing;
    with one pressure, there is such water at the pin, and other casts are made wet from there *)
Definition initial64 rel (rho : R -> R -> R -> R) (tol e d pm : R) (casts : list column) (edges : list (nat * nat)) (pin : nat) (pin_p : f64) (p_init : @pinit f64)
    (x : list bottle64) : Prop :=
  length x = length casts
  /\ match p_init with
     | IScalar _ => (exists c s t vs vt, nth_error casts pin = Some c /\ nth_error x pin = Some (s, t, pin_p) /\ sampled rel e c (s, t, pin_p) vs vt)
         /\ exists y, masked y x /\ forall n b, n <> pin -> nth_error y n = Some b -> b = (nan, nan, nan) \/ wetted64 rel rho tol e d pm casts (nbrs edges) y n
     | IArray _ p => forall n q c, nth_error p n = Some q -> nth_error casts n = Some c ->
         (forall gS gT lo hi, profile rel c gS gT lo hi -> inside64 q lo hi ->
            exists s t vs vt, nth_error x n = Some (s, t, q) /\ sampled rel e c (s, t, q) vs vt)
         /\ ((forall gS gT lo hi, profile rel c gS gT lo hi -> ~ inside64 q lo hi) -> nth_error x n = Some (nan, nan, nan))
     | IOther => False
     end.

(** the tolerance on the mean of |ϕ|, in the units of the equation of state *)
Definition tolerance64 (name : string) (o : @options f64) : f64 :=
  if String.eqb name "gsw" then div (TOL_LRPD_MAV o) (lit 1 6) else TOL_LRPD_MAV o.
Definition mixed64 (N : nat) (p_ml : option (list f64)) : list f64 := match p_ml with Some l => l | None => repeat ninf N end.

(** edges between N casts and the distances along and across them *)
Definition edges64 (N : nat) (edges : list (nat * nat)) (dist perp : @geom f64) (ds ws : list R) : Prop :=
  in_range edges N /\ edges <> [] /\ INR (length edges) <= powerRZ 2 31
  /\ distances64 dist (length edges) ds /\ distances64 perp (length edges) ws /\ Forall moderate ds /\ Forall (fun w => w = 0 \/ moderate w) ws.

(** the surface x, the diagnostics dd and the iterations its are what a run of omega_surf gives *)
Record ran64 rel (rho vs vt : R -> R -> R -> R) (name : string) (e d b pm : R) (casts : list column) (edges : list (nat * nat)) (ds ws : list R)
    (pin : nat) (pin_p : f64) (p_init : @pinit f64) (p_ml : option (list f64)) (o : @options f64) spsolve lsqr
    (x : list bottle64) (dd : option (@diagnostics f64)) (its : list (@iteration f64)) : Prop := {
  r64_surface : surface64 rel e pm casts x;
  r64_pin : exists s t, nth_error x pin = Some (s, t, pin_p);
  r64_step : forall k r, nth_error its k = Some r ->
    step64 rel rho vs vt (fval (TOL_P_SOLVER o)) e d b pm casts edges (weights ds ws) pin pin_p o spsolve lsqr (S k) r;
  r64_none : dd = None <-> o_diags o = false;
  r64_run : exists x0, initial64 rel rho (fval (TOL_P_SOLVER o)) e d pm casts edges pin pin_p p_init x0
    /\ run o (tolerance64 name o) (mixed64 (length casts) p_ml) pin pin_p x0 its x
    /\ forall q, dd = Some q -> exists errors, describes errors x0 its q
         /\ forall y, y = x0 \/ (exists k r, nth_error its k = Some r /\ y = i_out r) ->
              exists rms mav, errors y = Res.Ok (rms, mav) /\ norms64_of rel e b vs vt casts edges ds ws y rms mav }.

(** the arguments of the entry point omega_surf *)
Definition flat_init (p_init : @initarg f64) : @pinit f64 :=
  match p_init with InitScalar p => IScalar p | InitArray d => IArray (shape (arr d)) (elems (arr d)) | InitOther => IOther end.
Definition pin_omega64 (pin : @pinarg f64) (h : list nat) : Prop := pin = AList (map Z.of_nat h) \/ pin_tuple64 pin (map Z.of_nat h).
(** the mixed layer pressures: none; an array; or the result of mixed_layer with given arguments *)
Inductive mixed_arg (S T P : @data f64) (vd : vdim) (name : string) (grav rho_c : option f64) : @mlarg f64 -> option (list f64) -> Prop :=
| mixed_none : mixed_arg S T P vd name grav rho_c MNone None
| mixed_array a : mixed_arg S T P vd name grav rho_c (MArray a) (Some (elems a))
| mixed_dict d0 r0 b0 i0 v0 d r b i ml :
    keyword d0 (lit 3 (-2)) d -> keyword r0 (lit 100 0) r -> keyword b0 1%Z b -> keyword i0 "linear"%string i -> keyword v0 (VInt (-1)) (VInt (-1)) ->
    mixed_layer S T P (AStr name) grav rho_c d r b i vd = Ok ml ->
    mixed_arg S T P vd name grav rho_c (MDict None None d0 r0 b0 i0 v0) (Some (elems ml)).
