(** * Specification of omega_surf *)
From Coq Require Import Ascii String ZArith List Bool Reals.
From Verif Require Import Num XR Res Arr M_graph M_ntp M_matsolve M_omega S_graph S_interp S_traj S_vertsolve S_wet S_lib S_ntp S_matsolve.
Import ListNotations.
Local Open Scope Z_scope.

(** the letter c of the alphabet, as a capital *)
Definition capital (c : ascii) : option ascii :=
  let small := list_ascii_of_string "abcdefghijklmnopqrstuvwxyz"%string in
  let large := list_ascii_of_string "ABCDEFGHIJKLMNOPQRSTUVWXYZ"%string in
  option_map snd (List.find (fun x => Ascii.eqb (fst x) c) (combine small large)).
(** [spells w s]: s is the word w, in which letters may be capitals *)
Inductive spells : string -> string -> Prop :=
| spells_nil : spells ""%string ""%string
| spells_same c w s : spells w s -> spells (String c w) (String c s)
| spells_capital c d w s : capital c = Some d -> spells w s -> spells (String c w) (String d s).

Section Any.
  Context {F : Type} {Nm : Num F}.
  Notation bottle := (F * F * F)%type.
  Notation options := (@options F).
  Notation iteration := (@iteration F).
  Notation diagnostics := (@diagnostics F).

  (** wetting is asked for in iteration number k *)
  Definition wetting (o : options) (k : Z) : Prop := ITER_START_WETTING o <= k <= ITER_STOP_WETTING o.

  (** y is the surface x without the part above the mixed layer pressures ml (one for each cast, or one for all) *)
  Definition without_mixed_layer (ml : list F) (x y : list bottle) : Prop :=
    length y = length x
    /\ forall n s t p m, nth_error x n = Some (s, t, p) -> nth_error ml n = Some m \/ ml = [m] ->
         nth_error y n = Some (s, t, if ltb p m then nan else p).

  (** the criterion for stopping after iteration r *)
  Definition small_change (o : options) (tol : F) (r : iteration) : Prop :=
    ltb (i_phi_mav r) tol = true \/ ltb (i_dp_rms r) (TOL_P_CHANGE_RMS o) = true.

  (** the iterations its lead from the surface x0 to the surface x *)
  Record run (o : options) (tol : F) (ml : list F) (pin : nat) (pin_p : F) (x0 : list bottle) (its : list iteration)
    (x : list bottle) : Prop := {
    (* at most ITER_MAX iterations, at least one of them unless ITER_MAX <= 0 *)
    run_count : Z.of_nat (length its) <= Z.max 0 (ITER_MAX o);
    run_some : 0 < ITER_MAX o -> its <> [];
    run_result : forall r, nth_error its (length its - 1) = Some r -> x = i_out r;
    run_none : its = [] -> x = x0;
    (* each starts from what the previous one left, without the mixed layer *)
    run_first : forall r, nth_error its 0 = Some r -> i_in r = x0;
    run_next : forall k r r', nth_error its k = Some r -> nth_error its (S k) = Some r' ->
      without_mixed_layer ml (i_out r) (i_in r');
    (* the loop ends before ITER_MAX exactly if the change is small after iteration ITER_MIN or later *)
    run_stop : Z.of_nat (length its) < ITER_MAX o -> forall r, nth_error its (length its - 1) = Some r ->
      small_change o tol r /\ ITER_MIN o <= Z.of_nat (length its);
    run_go : forall k r, nth_error its k = Some r -> (S k < length its)%nat ->
      ~ (small_change o tol r /\ ITER_MIN o <= Z.of_nat (S k));
    (* no cast becomes wet except in the iterations chosen *)
    run_dry : forall k r, nth_error its k = Some r -> ~ wetting o (Z.of_nat (S k)) -> i_new r = 0%nat /\ i_wet r = i_in r;
    (* the pressure at the pin *)
    run_pin : forall k r, nth_error its k = Some r -> exists s t, nth_error (i_out r) pin = Some (s, t, pin_p) }.

  (** n casts of the surface x have a finite pressure *)
  Definition wet_casts (x : list bottle) (n : nat) : Prop :=
    exists l, NoDup l /\ length l = n /\ forall i, In i l <-> exists s t p, nth_error x i = Some (s, t, p) /\ isfinite p = true.

  (** the diagnostics d describe the surfaces and iterations *)
  Record describes (errors : list bottle -> res (F * F)) (x0 : list bottle) (its : list iteration) (d : diagnostics) : Prop := {
    d_lengths : length (d_e_RMS d) = S (length its) /\ length (d_e_MAV d) = S (length its)
      /\ length (d_phi_MAV d) = length its /\ length (d_dp_RMS d) = length its /\ length (d_dp_MAV d) = length its
      /\ length (d_dp_Linf d) = length its /\ length (d_n_wet d) = length its /\ length (d_n_newly_wet d) = length its;
    d_initial : exists rms mav, errors x0 = Ok (rms, mav) /\ nth_error (d_e_RMS d) 0 = Some rms /\ nth_error (d_e_MAV d) 0 = Some mav
      /\ exists n, nth_error (d_n_wet d) 0 = Some n /\ wet_casts x0 n;
    d_errors : forall k r, nth_error its k = Some r -> exists rms mav, errors (i_out r) = Ok (rms, mav)
      /\ nth_error (d_e_RMS d) (S k) = Some rms /\ nth_error (d_e_MAV d) (S k) = Some mav;
    (* all iterations but the last *)
    d_others : forall k r, nth_error its k = Some r -> (S k < length its)%nat ->
      nth_error (d_phi_MAV d) (S k) = Some (i_phi_mav r) /\ nth_error (d_dp_RMS d) (S k) = Some (i_dp_rms r)
      /\ nth_error (d_n_newly_wet d) (S k) = Some (i_new r) /\ exists n, nth_error (d_n_wet d) (S k) = Some n /\ wet_casts (i_out r) n }.

  (** x is y without pressures where there is no salinity *)
  Definition masked (y x : list bottle) : Prop :=
    length x = length y
    /\ forall n s t p, nth_error y n = Some (s, t, p) -> nth_error x n = Some (s, t, if isnan s then nan else p).

  (** how p_init determines the initial surface x0 and the pressure pin_p at the pin; grow is the search that makes casts
      wet next to the wet ones *)
  Definition begins (interp_two : F -> list F -> list F -> list F -> res (F * F)) (grow : list bottle -> res (nat * list bottle))
    (surf_shape : list nat) (casts : list (list F * list F * list F)) (pin : nat) (p_init : pinit) (x0 : list bottle) (pin_p : F) : Prop :=
    match p_init with
    | IScalar p => pin_p = p /\ exists S T P s t start y,
        nth_error casts pin = Some (S, T, P) /\ interp_two p P S T = Ok (s, t)
        /\ length start = length casts /\ nth_error start pin = Some (s, t, p)
        /\ (forall n, (n < length casts)%nat -> n <> pin -> nth_error start n = Some (nan, nan, nan))
        /\ (exists k, grow start = Ok (k, y)) /\ masked y x0
    | IArray sh ps => sh = surf_shape /\ nth_error ps pin = Some pin_p
        /\ forall n p S T P, nth_error ps n = Some p -> nth_error casts n = Some (S, T, P) ->
             exists s t, interp_two p P S T = Ok (s, t) /\ nth_error x0 n = Some (s, t, if isnan s then nan else p)
    | IOther => False
    end.
End Any.

Local Open Scope R_scope.
Notation bottle := (xr * xr * xr)%type.

(** x is water of the column c: an interpolated value at some pressure of the column *)
Definition on_cast rel (c : column) (x : bottle) : Prop :=
  exists gS gT lo hi r, profile rel c gS gT lo hi /\ lo <= r <= hi /\ x = (Fin (gS r), Fin (gT r), Fin r).

(** a surface through the columns: each point has no pressure (NaN) or is water of its column *)
Definition surface rel (casts : list column) (x : list bottle) : Prop :=
  length x = length casts
  /\ forall n b c, nth_error x n = Some b -> nth_error casts n = Some c -> snd b = NaN \/ on_cast rel c b.

(** the numbers among extended reals, their mean *)
Definition numbers (l : list xr) : list R := flat_map (fun x => match x with Fin r => [r] | _ => [] end) l.
Definition mean (l : list R) : R := Rsum l / INR (length l).
(** changes of pressure where both surfaces have one *)
Definition changes (x y : list bottle) : list R :=
  flat_map (fun ab => match snd (fst ab), snd (snd ab) with Fin p, Fin q => [q - p] | _, _ => [] end) (combine x y).

(** t is valid on the same block of levels as s *)
Definition same_extent (c : column) : Prop :=
  let '(S_, T_, P_) := c in forall k K ss ts ps, cast S_ T_ P_ k K ss ts ps -> block P_ T_ k K ps ts.

(** interpolation of a column at any pressure gives NaN or water of the column *)
Definition column_interp rel (interp_two : xr -> list xr -> list xr -> list xr -> res (xr * xr)) : Prop :=
  (forall Sc Tc Pc p, any_cast (Sc, Tc, Pc) -> same_extent (Sc, Tc, Pc) -> exists s t, interp_two p Pc Sc Tc = Ok (s, t)
      /\ (isnan s = true \/ on_cast rel (Sc, Tc, Pc) (s, t, p)))
  /\ forall Sc Tc Pc k K ss ts ps r, cast Sc Tc Pc k K ss ts ps -> same_extent (Sc, Tc, Pc) -> (k + 1 < K)%nat -> ps k <= r <= ps (K - 1)%nat ->
       exists s t, interp_two (Fin r) Pc Sc Tc = Ok (s, t) /\ isnan s = false.

Definition edge_rel (edges : list (nat * nat)) (i j : nat) : Prop := In (i, j) edges \/ In (j, i) edges.

(** what one iteration does in exact arithmetic *)
Record step rel (rho rs rt : R -> R -> R -> R) (tol : R) (casts : list column) (edges : list (nat * nat)) (weight : list R)
  (pin : nat) (o : @options xr) (r : @iteration xr) : Prop := {
  st_wet : surface rel casts (i_wet r);
  st_out : surface rel casts (i_out r);
  (* the search finds the wet casts connected to the pin *)
  st_nodes : forall n, In n (i_nodes r) <-> reach (edge_rel edges) (wet_at (i_wet r)) pin n;
  (* the perturbation minimises the neutrality errors *)
  st_phi : exists w, (forall n, In n (i_nodes r) -> exists b, nth_error (i_wet r) n = Some b /\ finite_bottle b (w n))
    /\ least_squares (length casts) (i_nodes r) pin
         (objective edges weight (i_nodes r) (fun a b => water_error rs rt (w a) (w b))) (i_phi r);
  st_phi_mav : i_phi_mav r = Fin (mean (map Rabs (numbers (i_phi r))));
  (* the surface moves vertically by the perturbation *)
  st_move : forall n b c f y, nth_error (i_wet r) n = Some b -> nth_error casts n = Some c -> nth_error (i_phi r) n = Some f ->
    nth_error (i_out r) n = Some y -> omega_output rel rho tol c b f y;
  st_dp_rms : o_diags o = true \/ (exists x, TOL_P_CHANGE_RMS o = Fin x /\ 0 < x) ->
    i_dp_rms r = Fin (sqrt (mean (map (fun x => x * x) (changes (i_wet r) (i_out r)))));
  st_pin : nth_error (i_out r) pin = nth_error (i_wet r) pin /\ nth_error (i_wet r) pin = nth_error (i_in r) pin }.

(** the weights of the edges *)
Definition weights (dist distperp : list R) : list R := map (fun wd => fst wd / snd wd) (combine distperp dist).

(** p_init puts the surface at the pressure pp at the pin *)
Definition starts_at (surf_shape : list nat) (casts : list column) (pin : nat) (pp : R) (p_init : @pinit xr) : Prop :=
  match p_init with
  | IScalar p => p = Fin pp
  | IArray sh p => sh = surf_shape /\ length p = length casts /\ nth_error p pin = Some (Fin pp)
  | IOther => False
  end.

(** the mixed layer pressures of p_ml, if given, are one for each cast and the pressure pp at the pin is not above them *)
Definition below_mixed_layer (casts : list column) (pin : nat) (pp : R) (p_ml : option (list xr)) : Prop :=
  match p_ml with
  | Some ml => length ml = length casts /\ forall m, nth_error ml pin = Some m -> ltb (Fin pp) m = false
  | None => True
  end.

(** pp is a pressure of the water of the cast number pin *)
Definition in_cast (casts : list column) (pin : nat) (pp : R) : Prop :=
  exists Sc Tc Pc k K ss ts ps, nth_error casts pin = Some (Sc, Tc, Pc) /\ cast Sc Tc Pc k K ss ts ps /\ (k + 1 < K)%nat
    /\ ps k <= pp <= ps (K - 1)%nat.

Definition greatest (m : R) (l : list R) : Prop := In m l /\ forall x, In x l -> x <= m.
