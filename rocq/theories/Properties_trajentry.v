(** * Property C67: the entry points ntp_bottle_to_cast and neutral_trajectory *)
From Coq Require Import String ZArith Reals List.
From Verif Require Import Num XR SF Res Arr Nd M_lib M_eostools M_surfaces M_trajentry S_eos S_interp S_float S_fzero64 S_traj S_domain S_named S_mixed_layer
  S_vertsolve S_surfaces S_vert64 S_entry64 S_trajentry P_trajentry P_trajentry64 Ex_ppinterp Ex_traj Ex_surfaces Ex_vert64 Ex_entry64 Ex_trajentry.
Import ListNotations.
Local Open Scope R_scope.

(** ** In exact arithmetic *)
Theorem C67_link : forall name v grav rho_c zp, named_eos name v -> pressure_factor grav rho_c zp ->
  forall interp rel, named_interp interp rel ->
  forall tol junk, 0 < tol ->
  forall c sB tB pB, any_cast c -> cast_in (seas zp) c -> dS (seas zp) sB -> dT (seas zp) tB -> dP (seas zp) pB ->
  exists x, (forall fuel, enough_fuel fuel tol c ->
      ntp_bottle_to_cast_kw junk fuel (Fin sB) (Fin tB) (Fin pB) (fst (fst c)) (snd (fst c)) (snd c) (mkTraj (Fin tol) interp (AStr name) grav rho_c) = Ok x)
    /\ neutral_bottle rel (at_depth zp v) tol sB tB pB c x.
Proof. exact link_kw. Qed.
Print Assumptions C67_link.

Theorem C67_trajectory : forall name v grav rho_c zp, named_eos name v -> pressure_factor grav rho_c zp ->
  forall interp rel, named_interp interp rel ->
  forall tol junk S T P vd s1 n s2 c nc c0 cs, water_columns S T P vd s1 n s2 c -> s1 ++ s2 = [nc] -> sequence nc c = c0 :: cs ->
  forall p0, 0 < tol -> has_pressure c0 p0 -> cast_in (seas zp) c0 -> (forall c', In c' cs -> any_cast c' /\ cast_in (seas zp) c') ->
  exists gS gT lo hi l, profile rel c0 gS gT lo hi /\ lo <= p0 <= hi
    /\ (forall fuel, (forall c', In c' cs -> enough_fuel fuel tol c') ->
        neutral_trajectory_kw junk fuel S T P (Fin p0) vd (mkTraj (Fin tol) interp (AStr name) grav rho_c)
        = Ok (arrays ((Fin (gS p0), Fin (gT p0), Fin p0) :: l)))
    /\ neutral_links rel (at_depth zp v) tol (Fin (gS p0), Fin (gT p0), Fin p0) cs l.
Proof. exact trajectory_kw. Qed.
Print Assumptions C67_trajectory.

(** the documented defaults: tolerance 1e-4, linear interpolation, the specific volume of TEOS-10 *)
Theorem C67_defaults : forall junk S T P vd s1 n s2 c nc c0 cs, water_columns S T P vd s1 n s2 c -> s1 ++ s2 = [nc] -> sequence nc c = c0 :: cs ->
  forall p0, has_pressure c0 p0 -> cast_in (seas 1) c0 -> (forall c', In c' cs -> any_cast c' /\ cast_in (seas 1) c') ->
  exists gS gT lo hi l, profile linear_fun c0 gS gT lo hi /\ lo <= p0 <= hi
    /\ (forall fuel, (forall c', In c' cs -> enough_fuel fuel (/ 10000) c') ->
        neutral_trajectory_kw junk fuel S T P (Fin p0) vd traj_defaults = Ok (arrays ((Fin (gS p0), Fin (gT p0), Fin p0) :: l)))
    /\ neutral_links linear_fun teos_v (/ 10000) (Fin (gS p0), Fin (gT p0), Fin p0) cs l.
Proof. exact trajectory_defaults. Qed.
Print Assumptions C67_defaults.

(** a start above or below the data of the first cast: its pressure is returned, all else is NaN *)
Theorem C67_outside : forall name v grav rho_c zp, named_eos name v -> pressure_factor grav rho_c zp ->
  forall interp rel, named_interp interp rel ->
  forall tol junk S T P vd s1 n s2 c nc c0 cs, water_columns S T P vd s1 n s2 c -> s1 ++ s2 = [nc] -> sequence nc c = c0 :: cs ->
  forall p0, beyond c0 p0 -> dP (seas zp) p0 -> (forall c', In c' cs -> any_cast c' /\ cast_in (seas zp) c') -> forall fuel, (13 <= fuel)%nat ->
  neutral_trajectory_kw junk fuel S T P (Fin p0) vd (mkTraj (Fin tol) interp (AStr name) grav rho_c)
  = Ok (arrays ((NaN, NaN, Fin p0) :: repeat (NaN, NaN, NaN) (length cs))).
Proof. exact outside_kw. Qed.
Print Assumptions C67_outside.

Theorem C67_nan_start : forall name v grav rho_c zp, named_eos name v -> pressure_factor grav rho_c zp ->
  forall interp rel, named_interp interp rel ->
  forall tol junk S T P vd s1 n s2 c nc c0 cs, water_columns S T P vd s1 n s2 c -> s1 ++ s2 = [nc] -> sequence nc c = c0 :: cs ->
  (exists k K ss ts ps, cast (fst (fst c0)) (snd (fst c0)) (snd c0) k K ss ts ps /\ (k + 1 < K)%nat) -> forall fuel,
  neutral_trajectory_kw junk fuel S T P NaN vd (mkTraj (Fin tol) interp (AStr name) grav rho_c) = Ok (arrays (repeat (NaN, NaN, NaN) nc)).
Proof. exact nan_kw. Qed.
Print Assumptions C67_nan_start.

Example C67_witness :
  named_eos "jmd95" jm_rho /\ pressure_factor None None 1 /\ named_interp "linear" linear_fun
  /\ water_columns sS sT sP (VName "z") [] 5 [2%nat] (fun _ => (exY, exT, exX))
  /\ [] ++ [2%nat] = [2%nat] /\ sequence 2 (fun _ : list nat => (exY, exT, exX)) = [(exY, exT, exX); (exY, exT, exX)]
  /\ has_pressure (exY, exT, exX) 2 /\ beyond (exY, exT, exX) 4 /\ dP (seas 1) 4
  /\ any_cast (exY, exT, exX) /\ cast_in (seas 1) (exY, exT, exX) /\ enough_fuel 13 1 (exY, exT, exX)
  /\ dS (seas 1) 5 /\ dT (seas 1) 1 /\ dP (seas 1) 2.
Proof. exact trajentry_witness. Qed.

(** ** Refusals, in any arithmetic *)
Theorem C67_refused : forall F (N : Num F) junk fuel (sB tB pB p0 : F) (Sc Tc Pc : list F) (S T P : @data F) vd tol interp e grav rho_c er,
  ((exists name, e = AStr name /\ ~ In name ["gsw"; "jmd95"; "jmdfwg06"]%string) /\ er = ValueError)
  \/ ((e = AOther \/ exists l, e = ATup l) /\ er = TypeError)
  \/ (((exists name, e = AStr name /\ In name ["gsw"; "jmd95"; "jmdfwg06"]%string) \/ (exists f, e = AFun f))
      /\ ~ In interp ["linear"; "pchip"]%string /\ er = ValueError) ->
  ntp_bottle_to_cast_kw junk fuel sB tB pB Sc Tc Pc (mkTraj tol interp e grav rho_c) = Err er
  /\ neutral_trajectory_kw junk fuel S T P p0 vd (mkTraj tol interp e grav rho_c) = Err er.
Proof. exact @refused. Qed.
Print Assumptions C67_refused.

(** data of other than two dimensions *)
Theorem C67_not_a_sequence : forall F (N : Num F) junk fuel (p0 : F) (S T P : @data F) vd s1 n s2 c tol interp e grav rho_c,
  ((exists name, e = AStr name /\ In name ["gsw"; "jmd95"; "jmdfwg06"]%string) \/ (exists f, e = AFun f)) -> In interp ["linear"; "pchip"]%string ->
  water_columns S T P vd s1 n s2 c -> length (s1 ++ s2) <> 1%nat ->
  neutral_trajectory_kw junk fuel S T P p0 vd (mkTraj tol interp e grav rho_c) = Err ValueError.
Proof. exact @not_a_sequence. Qed.
Print Assumptions C67_not_a_sequence.

Theorem C67_no_casts : forall F (N : Num F) junk fuel (p0 : F) (S T P : @data F) vd s1 n s2 c tol interp e grav rho_c,
  ((exists name, e = AStr name /\ In name ["gsw"; "jmd95"; "jmdfwg06"]%string) \/ (exists f, e = AFun f)) -> In interp ["linear"; "pchip"]%string ->
  water_columns S T P vd s1 n s2 c -> s1 ++ s2 = [0%nat] ->
  neutral_trajectory_kw junk fuel S T P p0 vd (mkTraj tol interp e grav rho_c) = Ok ([], [], []).
Proof. exact @no_casts. Qed.
Print Assumptions C67_no_casts.

Example C67_one_cast : water_columns (one_cast_data exY) (one_cast_data exT) (one_cast_data exX) (VInt 0) [] 5 [] (fun _ => (exY, exT, exX)).
Proof. exact one_cast_columns. Qed.
Example C67_empty : water_columns empty_data empty_data empty_data (VInt (-1)) [0%nat] 5 [] (fun _ => ([], [], [])).
Proof. exact empty_columns. Qed.

(** ** In binary64 *)
Theorem C67_link64 : forall interp ppc rel e, scheme64 interp ppc rel e ->
  forall name v s0 d B grav rho_c zp pm, named_eos name v -> limits64 name s0 e d B -> coordinate64 grav rho_c zp pm ->
  forall junk tol : f64, finite64 tol -> tolerance_ok (fval tol) ->
  forall (s t p : f64) vs vt Sc Tc Pc c', S_float.within s vs e -> dS (sea s0 pm) vs -> S_float.within t vt e -> dT (sea s0 pm) vt ->
  finite64 p -> dP (sea s0 pm) (fval p) ->
  holds_column (Sc, Tc, Pc) c' -> any_cast c' -> cast_in (sea s0 pm) c' -> column_spaced c' -> guess_apart (fval p) c' ->
  exists r, (forall fuel, enough_fuel64 fuel (fval tol) c' ->
      ntp_bottle_to_cast_kw junk fuel s t p Sc Tc Pc (mkTraj tol interp (AStr name) grav rho_c) = Ok r)
    /\ surface_point64 rel (neutral_of (at_depth zp v) vs vt (fval p)) (fval tol) e (2 * d) c' r.
Proof. exact link_kw64. Qed.
Print Assumptions C67_link64.

Theorem C67_trajectory64 : forall interp ppc rel e, scheme64 interp ppc rel e ->
  forall name v s0 d B grav rho_c zp pm, named_eos name v -> limits64 name s0 e d B -> coordinate64 grav rho_c zp pm ->
  forall junk tol : f64, finite64 tol -> tolerance_ok (fval tol) ->
  forall S T P vd s1 n s2 c nc c0 cs, water_columns S T P vd s1 n s2 c -> s1 ++ s2 = [nc] -> sequence nc c = c0 :: cs ->
  forall c0' cs', holds_column c0 c0' -> cast_in (sea s0 pm) c0' -> column_spaced c0' ->
  Forall2 holds_column cs cs' -> Forall (fun c => any_cast c /\ cast_in (sea s0 pm) c /\ column_spaced c /\ starts_below c) cs' ->
  forall fuel (p0 : f64), finite64 p0 -> has_pressure c0' (fval p0) -> Forall (enough_fuel64 fuel (fval tol)) cs' ->
  exists x l, neutral_trajectory_kw junk fuel S T P p0 vd (mkTraj tol interp (AStr name) grav rho_c) = Ok (arrays (x :: l)) /\ snd x = p0
    /\ (exists vs vt, sampled rel e c0' x vs vt)
    /\ neutral_chain rel (at_depth zp v) (fval tol) e (2 * d) c0' x cs' l.
Proof. exact trajectory_kw64. Qed.
Print Assumptions C67_trajectory64.

Theorem C67_outside64 : forall interp ppc rel e, scheme64 interp ppc rel e ->
  forall name v s0 d B grav rho_c zp pm, named_eos name v -> limits64 name s0 e d B -> coordinate64 grav rho_c zp pm ->
  forall junk tol : f64,
  forall S T P vd s1 n s2 c nc c0 cs, water_columns S T P vd s1 n s2 c -> s1 ++ s2 = [nc] -> sequence nc c = c0 :: cs ->
  forall c0' cs', holds_column c0 c0' -> cast_in (sea s0 pm) c0' -> column_spaced c0' ->
  Forall2 holds_column cs cs' -> Forall (fun c => any_cast c /\ cast_in (sea s0 pm) c /\ column_spaced c /\ starts_below c) cs' ->
  forall fuel (p0 : f64), finite64 p0 -> beyond c0' (fval p0) -> 0 <= fval p0 <= pm -> (13 <= fuel)%nat ->
  neutral_trajectory_kw junk fuel S T P p0 vd (mkTraj tol interp (AStr name) grav rho_c)
  = Ok (arrays ((nan, nan, p0) :: repeat (nan, nan, nan) (length cs))).
Proof. exact outside_kw64. Qed.
Print Assumptions C67_outside64.

Theorem C67_nan_start64 : forall interp ppc rel e, scheme64 interp ppc rel e ->
  forall name v s0 d B grav rho_c zp pm, named_eos name v -> limits64 name s0 e d B -> coordinate64 grav rho_c zp pm ->
  forall junk tol : f64,
  forall S T P vd s1 n s2 c nc c0 cs, water_columns S T P vd s1 n s2 c -> s1 ++ s2 = [nc] -> sequence nc c = c0 :: cs ->
  forall c0', holds_column c0 c0' -> cast_in (sea s0 pm) c0' -> column_spaced c0' ->
  forall fuel, (exists k K ss ts ps, cast (fst (fst c0')) (snd (fst c0')) (snd c0') k K ss ts ps /\ (k + 1 < K)%nat) ->
  neutral_trajectory_kw junk fuel S T P nan vd (mkTraj tol interp (AStr name) grav rho_c) = Ok (arrays (repeat (nan, nan, nan) (length (c0 :: cs)))).
Proof. exact nan_kw64. Qed.
Print Assumptions C67_nan_start64.

Example C67_witness64 :
  coordinate64 None None 1 10000 /\ water_columns eS eT eP (VInt (-1)) [2%nat] 4 [] ecol
  /\ [2%nat] ++ [] = [2%nat] /\ sequence 2 ecol = [colA; colB]
  /\ holds_column colA colA' /\ cast_in (sea (/ 1000) 10000) colA' /\ column_spaced colA'
  /\ Forall2 holds_column [colB] [colB']
  /\ Forall (fun c => any_cast c /\ cast_in (sea (/ 1000) 10000) c /\ column_spaced c /\ starts_below c) [colB']
  /\ finite64 (lit 500 0 : f64) /\ has_pressure colA' (fval (lit 500 0 : f64)) /\ Forall (enough_fuel64 fuel_ex (fval (lit 1 0 : f64))) [colB']
  /\ finite64 (lit 5 0 : f64) /\ beyond colA' (fval (lit 5 0 : f64)) /\ 0 <= fval (lit 5 0 : f64) <= 10000.
Proof. exact trajentry64_witness. Qed.
Example C67_run : exists r, te_value = Some r /\ neutral_trajectory_kw (nan : f64) fuel_ex eS eT eP (lit 500 0) (VInt (-1)) te_args = Ok r.
Proof. exact te_runs. Qed.
