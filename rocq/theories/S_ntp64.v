(** * Specification vocabulary for neutrality errors computed in binary64 *)
From Coq Require Import String ZArith Reals List Permutation SpecFloat.
From Verif Require Import Num XR SF M_ntp Nd S_lib S_eos S_float S_domain S_named S_traj S_vertsolve S_ntp S_vert64.
Import ListNotations.
Local Open Scope R_scope.

(** for each name: the least salinity considered, the error of salinities and temperatures, and a bound on the error of the neutrality error
    along an edge *)
Inductive error_limits64 : string -> R -> R -> R -> Prop :=
| elim_jmd95 : error_limits64 "jmd95" (/ 1000) (dec 1 (-13)) (dec 2 (-11))
| elim_jmd95' : error_limits64 "jmd95" (/ 1000) (dec 1 (-12)) (dec 2 (-10))
| elim_jmdfwg06 : error_limits64 "jmdfwg06" (/ 1000) (dec 1 (-13)) (dec 3 (-11))
| elim_jmdfwg06' : error_limits64 "jmdfwg06" (/ 1000) (dec 1 (-12)) (dec 3 (-10))
| elim_gsw : error_limits64 "gsw" 0 (dec 1 (-13)) (dec 1 (-16))
| elim_gsw' : error_limits64 "gsw" 0 (dec 1 (-12)) (dec 6 (-16)).

(** The bottle x holds water w (salinity, temperature, pressure) of the range D, salinity and temperature up to e; or lacks
    salinity, or temperature, when its salinity is a number of at most 1000. *)
Definition bottle_holds (D : domain) (e : R) (x : bottle64) (w : option (R * R * R)) : Prop :=
  let '(s, t, p) := x in
  match w with
  | Some (vs, vt, vp) => S_float.within s vs e /\ S_float.within t vt e /\ finite64 p /\ fval p = vp
      /\ dS D vs /\ 0 < vs /\ dT D vt /\ dP D vp
  | None => s = nan \/ t = nan /\ finite64 s /\ Rabs (fval s) <= 1000
  end.

(** the neutrality error between two waters, if both are there *)
Definition edge_error (rs rt : R -> R -> R -> R) (a b : option (R * R * R)) : option R :=
  match a, b with Some a, Some b => Some (water_error rs rt a b) | _, _ => None end.
Definition edge_errors (rs rt : R -> R -> R -> R) (w : list (option (R * R * R))) (edges : list (nat * nat)) : list (option R) :=
  map (fun e => edge_error rs rt (nth (fst e) w None) (nth (snd e) w None)) edges.

(** e is the number x up to b, or NaN if there is none *)
Definition error_holds (x : option R) (b : R) (e : f64) : Prop :=
  match x with Some x => S_float.within e x b | None => e = nan end.

(** a distance given as a float or as an array means the real numbers l, one per edge *)
Definition distances64 (g : @geom f64) (n : nat) (l : list R) : Prop :=
  length l = n /\ ((exists x, g = Ar x /\ Forall2 (fun y r => finite64 y /\ fval y = r) x l)
                   \/ exists c, g = Sc c /\ finite64 c /\ l = repeat (fval c) n).

(** distances that may be multiplied and divided freely *)
Definition moderate (r : R) : Prop := powerRZ 2 (-100) <= r <= powerRZ 2 100.

(** x is the sum of l, rounded after each addition, in some order *)
Inductive summed : list f64 -> f64 -> Prop :=
| sum_none : summed [] zero
| sum_one x : summed [x] x
| sum_two l l1 l2 x y : Permutation l (l1 ++ l2) -> summed l1 x -> summed l2 y -> summed l (add x y).

(** distance, distance across, and neutrality error of every edge that has one *)
Fixpoint wet (e : list (option R)) (dist distperp : list R) : list (R * R * R) :=
  match e, dist, distperp with
  | Some x :: e, d :: ds, w :: ws => (d, w, x) :: wet e ds ws
  | _ :: e, _ :: ds, _ :: ws => wet e ds ws
  | _, _, _ => []
  end.

(** rms and mav are the root mean square and the mean absolute value of the neutrality errors per distance, weighted by area.  Errors b of
    the neutrality errors change these by at most b times the same mean of the inverse distance; the rest is due to rounding in sums. *)
Definition norms_hold (b : R) (n : nat) (l : list (R * R * R)) (rms mav : f64) : Prop :=
  let err := map (fun x => let '(d, w, x) := x in (d * w, x / d)) l in
  let inv := map (fun x => let '(d, w, _) := x in (d * w, 1 / d)) l in
  let root f := sqrt (wmean (fun x => x * x) f) in
  (total err = 0 -> rms = zero /\ mav = zero)
  /\ (total err <> 0 ->
        S_float.within rms (root err) (2 * b * root inv + INR (n + 1) * powerRZ 2 (-50) * root err)
        /\ S_float.within mav (wmean Rabs err) (2 * b * wmean Rabs inv + INR (n + 1) * powerRZ 2 (-50) * wmean Rabs err)).

(** the bottle x is missing, or is on column c, the water of which is w there *)
Definition on_column rel (e : R) (c : column) (x : bottle64) (w : option (R * R * R)) : Prop :=
  (x = (nan, nan, nan) /\ w = None) \/ exists vs vt, sampled rel e c x vs vt /\ w = Some (vs, vt, fval (snd x)).

(** number of positions with water *)
Definition waters (sh : list nat) (w : list nat -> option (R * R * R)) : nat :=
  length (filter (fun h => match w h with Some _ => true | None => false end) (all_idx sh)).

(** a grid of edges between the positions, with distances along and across *)
Definition geometry64 (sh : list nat) (grid : @gridarg f64) (edges : list (nat * nat)) (ds ws : list R) : Prop :=
  exists dist perp, grid = GDict (Some edges) (Some dist) (Some perp)
    /\ Forall (fun e => (fst e < prod sh)%nat /\ (snd e < prod sh)%nat) edges /\ INR (length edges) <= powerRZ 2 40
    /\ distances64 dist (length edges) ds /\ distances64 perp (length edges) ws
    /\ Forall moderate ds /\ Forall (fun w => w = 0 \/ moderate w) ws.
