(** * The Veronis density in binary64 *)
From Coq Require Import String ZArith Reals List SpecFloat.
From Coquelicot Require Import Coquelicot.
From Verif Require Import Num XR SF Res Arr M_eostools M_label S_eos S_float S_domain S_named S_traj S_vert64 S_surfaces S_entry64 S_label S_omega64 S_label64
  P_label64d P_label64e P_label64f Ex_label64 Ex_label64b.
Import ListNotations.
Local Open Scope R_scope.

(** The density computed along a cast of K levels (gS, gT: its linear interpolants) is the potential density at p0, relative to p_ref, plus b
    times the integral I from p0 to p1 of the gradient of locally referenced potential density.  The error is that of the trapezoidal rule
    with steps of at most dp (second derivatives at most M, layers at most W thick), that of the potential density, d, and that of the
    integral, which is proportional to the variation of salinity and temperature over the cast. *)
Theorem C70_accuracy : forall name rho s0 d B c r grav rho_c zp pm vs vt,
  named_eos name rho -> limits64 name s0 (dec 1 (-13)) d B -> label64 name c r -> coordinate64 grav rho_c zp pm ->
  partials (seas zp) (at_depth zp rho) vs vt ->
  forall S T P S' T' P' K ss ts ps W, cast64 (sea s0 pm) S T P S' T' P' K ss ts ps W ->
  forall gS gT, linear_fun K ps ss gS -> linear_fun K ps ts gT ->
  forall f g, (forall x, in_range K ps x -> f x = vs (gS x) (gT x) x) -> (forall x, in_range K ps x -> g x = vt (gS x) (gT x) x) ->
  (forall x, continuity_pt f x) -> (forall x, continuity_pt g x) ->
  forall M, smooth_pieces K ps (gradient f g gS gT) M ->
  forall junk p0 p1 p_ref b dp, finite64 p0 -> finite64 p1 -> finite64 p_ref -> finite64 b -> finite64 dp ->
  in_range K ps (fval p0) -> in_range K ps (fval p1) -> 0 <= fval p_ref <= pm -> Rabs (fval b) <= 10 ^ 6 -> / 1000 <= fval dp <= 5000 ->
  exists v I, veronis junk p1 S T P (Some p0) p_ref b dp "linear" (AStr name) grav rho_c = Ok v /\ finite64 v
    /\ is_RInt (gradient f g gS gT) (fval p0) (fval p1) I
    /\ Rabs (fval v - (at_depth zp rho (gS (fval p0)) (gT (fval p0)) (fval p_ref) + fval b * I))
         <= Rabs (fval b) * (M * (fval dp * (1 + powerRZ 2 (-20))) ^ 2 / 12 * (Rabs (fval p1 - fval p0) + 2 * W)) + d
            + Rabs (fval b) * ((variation K ss ts + / 100) * (c + (INR K + 30 + 15000 / fval dp) * r)).
Proof. exact veronis64. Qed.
Print Assumptions C70_accuracy.

(** The same without assumptions on smoothness: where salinities are at least smin and change, like temperatures, by at most L per unit of the
    vertical coordinate, second derivatives of the gradient are at most C L^3 between levels. *)
Theorem C70_explicit : forall name rho s0 d B c r smin C grav rho_c zp pm vs vt,
  named_eos name rho -> limits64 name s0 (dec 1 (-13)) d B -> label64 name c r -> bend64 name smin C -> coordinate64 grav rho_c zp pm ->
  partials (seas zp) (at_depth zp rho) vs vt ->
  forall S T P S' T' P' K ss ts ps W L, cast64 (sea s0 pm) S T P S' T' P' K ss ts ps W ->
  (forall i, (i < K)%nat -> smin <= ss i) -> steep K ss ts ps L ->
  forall gS gT, linear_fun K ps ss gS -> linear_fun K ps ts gT ->
  forall junk p0 p1 p_ref b dp, finite64 p0 -> finite64 p1 -> finite64 p_ref -> finite64 b -> finite64 dp ->
  in_range K ps (fval p0) -> in_range K ps (fval p1) -> 0 <= fval p_ref <= pm -> Rabs (fval b) <= 10 ^ 6 -> / 1000 <= fval dp <= 5000 ->
  exists v I, veronis junk p1 S T P (Some p0) p_ref b dp "linear" (AStr name) grav rho_c = Ok v /\ finite64 v
    /\ is_RInt (fun x => vs (gS x) (gT x) x * Derive gS x + vt (gS x) (gT x) x * Derive gT x) (fval p0) (fval p1) I
    /\ Rabs (fval v - (at_depth zp rho (gS (fval p0)) (gT (fval p0)) (fval p_ref) + fval b * I))
         <= Rabs (fval b) * (C * L ^ 3 * (fval dp * (1 + powerRZ 2 (-20))) ^ 2 / 12 * (Rabs (fval p1 - fval p0) + 2 * W)) + d
            + Rabs (fval b) * ((variation K ss ts + / 100) * (c + (INR K + 30 + 15000 / fval dp) * r)).
Proof. exact veronis64_explicit. Qed.
Print Assumptions C70_explicit.

(** The density at p1 is greater than that at q < p1, both relative to p0, where b times the gradient is at least m between them (for specific
    volume, b is negative) and the bounds on the two errors add up to less than m (p1 - q). *)
Theorem C70_increasing : forall name rho s0 d B c r smin C grav rho_c zp pm vs vt,
  named_eos name rho -> limits64 name s0 (dec 1 (-13)) d B -> label64 name c r -> bend64 name smin C -> coordinate64 grav rho_c zp pm ->
  partials (seas zp) (at_depth zp rho) vs vt ->
  forall S T P S' T' P' K ss ts ps W L, cast64 (sea s0 pm) S T P S' T' P' K ss ts ps W ->
  (forall i, (i < K)%nat -> smin <= ss i) -> steep K ss ts ps L ->
  forall gS gT, linear_fun K ps ss gS -> linear_fun K ps ts gT ->
  forall junk p0 q p1 p_ref b dp, finite64 p0 -> finite64 q -> finite64 p1 -> finite64 p_ref -> finite64 b -> finite64 dp ->
  in_range K ps (fval p0) -> in_range K ps (fval q) -> in_range K ps (fval p1) -> fval q < fval p1 ->
  0 <= fval p_ref <= pm -> Rabs (fval b) <= 10 ^ 6 -> / 1000 <= fval dp <= 5000 ->
  forall m, (forall i x, (i + 1 < K)%nat -> ps i < x < ps (i + 1)%nat -> fval q < x < fval p1 ->
    m <= fval b * (vs (gS x) (gT x) x * Derive gS x + vt (gS x) (gT x) x * Derive gT x)) ->
  Rabs (fval b) * (C * L ^ 3 * (fval dp * (1 + powerRZ 2 (-20))) ^ 2 / 12 * (Rabs (fval q - fval p0) + Rabs (fval p1 - fval p0) + 4 * W)) + 2 * d
    + 2 * (Rabs (fval b) * ((variation K ss ts + / 100) * (c + (INR K + 30 + 15000 / fval dp) * r))) < m * (fval p1 - fval q) ->
  exists u v, veronis junk q S T P (Some p0) p_ref b dp "linear" (AStr name) grav rho_c = Ok u
    /\ veronis junk p1 S T P (Some p0) p_ref b dp "linear" (AStr name) grav rho_c = Ok v
    /\ finite64 u /\ finite64 v /\ fval u < fval v.
Proof. exact veronis64_increasing. Qed.
Print Assumptions C70_increasing.

(** A cast without missing levels: NaN when p0 or p1 is not a number in its range. *)
Theorem C70_outside : forall name rho s0 d B grav rho_c zp pm S T P S' T' P' K ss ts ps W,
  named_eos name rho -> limits64 name s0 (dec 1 (-13)) d B -> coordinate64 grav rho_c zp pm ->
  cast64 (sea s0 pm) S T P S' T' P' K ss ts ps W -> length P = K ->
  forall junk p0 p1 p_ref b dp, float64 p0 -> float64 p1 -> finite64 p_ref -> 0 <= fval p_ref <= pm ->
  ~ inside64 p0 (ps 0%nat) (ps (K - 1)%nat) \/ ~ inside64 p1 (ps 0%nat) (ps (K - 1)%nat) ->
  veronis junk p1 S T P (Some p0) p_ref b dp "linear" (AStr name) grav rho_c = Ok nan.
Proof. exact outside_any. Qed.
Print Assumptions C70_outside.

(** ** The hypotheses can be met *)
Theorem C70_witness : exists M v I, smooth_pieces 2 ps (gradient f g gS gT) M
  /\ veronis nan (lit 600 0) lS lT lP (Some (lit 0 0)) (lit 500 0) (lit 4 0) (lit 10 0) "linear" (AStr "gsw") None None = Ok v
  /\ is_RInt (gradient f g gS gT) 0 600 I
  /\ Rabs (fval v - (teos_v 35 20 500 + 4 * I)) <= 4 * (M * (10 * (1 + powerRZ 2 (-20))) ^ 2 / 12 * (600 + 2 * 1000)) + dec 2 (-17)
       + 4 * ((10 + / 100) * (dec 4 (-18) + (2 + 30 + 15000 / 10) * dec 6 (-21))).
Proof. exact label64_case. Qed.
Print Assumptions C70_witness.
Theorem C70_witness_outside :
  veronis nan (lit 2000 0) lS lT lP (Some (lit 0 0)) (lit 500 0) (lit 4 0) (lit 10 0) "linear" (AStr "gsw") None None = Ok nan.
Proof. exact outside64_case. Qed.
Print Assumptions C70_witness_outside.
Theorem C70_witness_explicit : exists (us ut : R -> R -> R -> R) v I, partials (seas 1) (at_depth 1 teos_v) us ut
  /\ veronis nan (lit 600 0) lS lT lP (Some (lit 0 0)) (lit 500 0) (lit 4 0) (lit 10 0) "linear" (AStr "gsw") None None = Ok v
  /\ is_RInt (fun x => us 35 (20 + - / 100 * x) x * Derive gS x + ut 35 (20 + - / 100 * x) x * Derive gT x) 0 600 I
  /\ Rabs (fval v - (teos_v 35 20 500 + 4 * I)) <= dec 7 (-9).
Proof. exact explicit64_case. Qed.
Print Assumptions C70_witness_explicit.
Theorem C70_witness_increasing : exists u v,
  veronis nan (lit 300 0) iS iT lP (Some (lit 0 0)) (lit 500 0) (lit (-4) 0) (lit 10 0) "linear" (AStr "gsw") None None = Ok u
  /\ veronis nan (lit 600 0) iS iT lP (Some (lit 0 0)) (lit 500 0) (lit (-4) 0) (lit 10 0) "linear" (AStr "gsw") None None = Ok v
  /\ finite64 u /\ finite64 v /\ fval u < fval v.
Proof. exact increasing64_case. Qed.
Print Assumptions C70_witness_increasing.
