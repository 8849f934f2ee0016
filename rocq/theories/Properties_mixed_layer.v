(** * Property C44: the mixed layer (mixed_layer.py) *)
From Coq Require Import String ZArith Bool Reals Lra Lia List.
From Verif Require Import Num XR SF Res Arr Nd M_lib M_ppinterp M_eos_base M_eostools M_mixed_layer S_eos S_interp S_traj S_lib S_mixed_layer
  P_mixed_layer P_mixed_layer2 P_mlnamed Ex_mixed_layer.
Import ListNotations.
Local Open Scope R_scope.

(** ** Any profile, linear interpolation: the pressure lies in a layer over which the excess of
    potential density over the bottle rises through the threshold, by linear interpolation *)
Theorem C44_linear :
  forall f ref S T P k K ss ts ps sig, cast S T P k K ss ts ps -> pot_density f ref S T k K sig ->
  forall b B, py_index (length S) b B -> (k <= B < K)%nat ->
  forall x, excess sig B k < x <= excess sig B (K - 1) ->
    exists i p, (k <= i)%nat /\ (Datatypes.S i < K)%nat /\ excess sig B i < x <= excess sig B (Datatypes.S i)
      /\ mixed_layer_1 f linear_interp_1 (Fin x) ref b S T P = Ok (Fin p)
      /\ between ps (excess sig B) i x p /\ ps i < p <= ps (Datatypes.S i).
Proof. exact ml_linear. Qed.
Print Assumptions C44_linear.

(** NaN when the threshold is not between the excesses at the first and last levels (any interpolant) *)
Theorem C44_outside :
  forall f ref S T P k K ss ts ps sig, cast S T P k K ss ts ps -> pot_density f ref S T k K sig ->
  forall b B, py_index (length S) b B -> (k <= B < K)%nat ->
  forall x, (K <= k + 1)%nat \/ x < excess sig B k \/ excess sig B (K - 1) < x ->
  forall c, mixed_layer_1 f (ppinterp_1 c) (Fin x) ref b S T P = Ok NaN.
Proof. exact ml_linear_outside. Qed.
Print Assumptions C44_outside.

(** ** Stable profile, linear or PCHIP: a continuous nondecreasing function of the threshold,
    which is the pressure of each level at that level's excess; below the bottle for x >= 0 *)
Theorem C44_stable :
  forall f ref S T P k K ss ts ps sig, cast S T P k K ss ts ps -> pot_density f ref S T k K sig ->
  forall b B, py_index (length S) b B -> (k <= B < K)%nat ->
  forall lin : bool, (k + 1 < K)%nat ->
    (forall i, (k <= i)%nat -> (Datatypes.S i < K)%nat -> sig i < sig (Datatypes.S i)) ->
    exists g : R -> R,
      (forall x, excess sig B k <= x <= excess sig B (K - 1) ->
         mixed_layer_1 f (if lin then linear_interp_1 else pchip_interp_1) (Fin x) ref b S T P = Ok (Fin (g x)))
      /\ (forall x, continuity_pt g x)
      /\ (forall i, (k <= i < K)%nat -> g (excess sig B i) = ps i)
      /\ (forall x y, excess sig B k <= x -> x <= y -> y <= excess sig B (K - 1) -> g x <= g y)
      /\ (forall x, 0 <= x <= excess sig B (K - 1) -> ps B <= g x <= ps (K - 1)%nat).
Proof. exact ml_sorted. Qed.
Print Assumptions C44_stable.

(** ** The named equations of state, with or without Boussinesq depth, give the potential density *)
Theorem C44_named :
  forall name rho grav rho_c zp ref S T P k K ss ts ps, density name rho -> pressure_factor grav rho_c zp ->
  ocean (69 / 2) 3 (1000 * zp) -> sea_water S T (ref * zp) -> cast S T P k K ss ts ps ->
  exists f, make_eos sdiv (AStr name) grav rho_c = Ok (F1 f)
    /\ pot_density f (Fin ref) S T k K (fun i => rho (ss i) (ts i) (ref * zp)).
Proof. exact named_density. Qed.
Print Assumptions C44_named.

(** ** Missing data at the bottle: NaN *)
Theorem C44_missing :
  forall f ref S T P, length S = length P -> length T = length P ->
  (forall i s t, nth_error S i = Some s -> nth_error T i = Some t -> exists v, f s t ref = Ok v) ->
  forall e, f (Fin (69 / 2)) (Fin 3) (Fin 1000) = Ok e ->
  forall b B sB tB c x, py_index (length S) b B -> nth_error S B = Some sB -> nth_error T B = Some tB ->
    f sB tB ref = Ok NaN -> mixed_layer_1 f (ppinterp_1 c) x ref b S T P = Ok NaN.
Proof. exact ml_missing. Qed.
Print Assumptions C44_missing.

(** ** bottle_index = -1 (the last bottle, in Python) or beyond the cast is an error *)
Theorem C44_bad_index :
  forall f ref S T P, length S = length P -> length T = length P ->
  (forall i s t, nth_error S i = Some s -> nth_error T i = Some t -> exists v, f s t ref = Ok v) ->
  forall e, f (Fin (69 / 2)) (Fin 3) (Fin 1000) = Ok e ->
  forall b g x, (0 < length P)%nat -> (b = -1 \/ b < - Z.of_nat (length P) \/ Z.of_nat (length P) <= b)%Z ->
    mixed_layer_1 f g x ref b S T P = Err ValueError.
Proof. exact ml_bad_index. Qed.
Print Assumptions C44_bad_index.

(** ** Whole arrays, in any arithmetic: each output is that of its cast, wherever the vertical
    axis is and whether P has all dimensions or one *)
Theorem C44_columns :
  forall (F : Type) (N : Num F) (S T P : @data F) eos grav rho_c x ref b interp v s1 n s2 f name,
    wf (arr S) -> wf (arr T) -> wf (arr P) ->
    shape (arr S) = s1 ++ n :: s2 -> shape (arr T) = s1 ++ n :: s2 ->
    (shape (arr P) = s1 ++ n :: s2 \/ shape (arr P) = [n]) ->
    process_vert_dim v S = Ok (length s1) ->
    make_eos sdiv eos grav rho_c = Ok (F1 f) ->
    (interp = "linear" /\ name = linear_interp_1 \/ interp = "pchip" /\ name = pchip_interp_1)%string ->
    let Px := fun ix => if Nat.eqb (ndim (arr P)) (ndim (arr S)) then at_ (arr P) ix else at_ (arr P) [nth (length s1) ix 0%nat] in
    let ml h1 h2 y := forall s t p, cast_at (at_ (arr S)) n h1 h2 s -> cast_at (at_ (arr T)) n h1 h2 t -> cast_at Px n h1 h2 p ->
       mixed_layer_1 f name x ref b s t p = Ok y in
    (forall out, mixed_layer S T P eos grav rho_c x ref b interp v = Ok out ->
       shape out = s1 ++ s2 /\ wf out /\
       forall h1 h2, valid s1 h1 -> valid s2 h2 -> exists y, at_ out (h1 ++ h2) = Some y /\ ml h1 h2 y)
    /\ ((forall h1 h2, valid s1 h1 -> valid s2 h2 -> exists y, ml h1 h2 y) ->
        exists out, mixed_layer S T P eos grav rho_c x ref b interp v = Ok out)
    /\ (forall h1 h2, valid s1 h1 -> valid s2 h2 -> exists s t p,
          cast_at (at_ (arr S)) n h1 h2 s /\ cast_at (at_ (arr T)) n h1 h2 t /\ cast_at Px n h1 h2 p).
Proof. exact @mixed_layer_columns. Qed.
Print Assumptions C44_columns.

(** ** A function that returns a pair (such as the partial derivatives) is refused *)
Theorem C44_pair :
  forall (F : Type) (N : Num F) (S T P : @data F) eos grav rho_c x ref b interp v s1 n s2 g,
    wf (arr S) -> wf (arr T) -> wf (arr P) ->
    shape (arr S) = s1 ++ n :: s2 -> shape (arr T) = s1 ++ n :: s2 ->
    (shape (arr P) = s1 ++ n :: s2 \/ shape (arr P) = [n]) ->
    process_vert_dim v S = Ok (length s1) ->
    make_eos sdiv eos grav rho_c = Ok (F2 g) -> (interp = "linear" \/ interp = "pchip")%string -> (0 < prod (s1 ++ s2))%nat ->
    mixed_layer S T P eos grav rho_c x ref b interp v = Err TypeError.
Proof. exact @mixed_layer_pair. Qed.
Print Assumptions C44_pair.

(** ** What does not hold *)

(** "the pressure at which the potential density exceeds ...": NaN though the profile crosses the threshold *)
Theorem C44_crossing_refuted :
  exists l q x, let S := map Fin l in let P := map Fin q in
  cast S S P 0 (length l) (lv l) (lv l) (lv q) /\ pot_density f1 (Fin 0) S S 0 (length l) (lv l)
  /\ lv l 0 - lv l 0 < x < lv l 1 - lv l 0
  /\ mixed_layer_1 f1 linear_interp_1 (Fin x) (Fin 0) 0 S S P = Ok NaN.
Proof. exact crossing_missed. Qed.
Print Assumptions C44_crossing_refuted.

(** not the shallowest crossing *)
Theorem C44_shallowest_refuted :
  exists l q x p, let S := map Fin l in let P := map Fin q in
  cast S S P 0 (length l) (lv l) (lv l) (lv q) /\ pot_density f1 (Fin 0) S S 0 (length l) (lv l)
  /\ mixed_layer_1 f1 linear_interp_1 (Fin x) (Fin 0) 0 S S P = Ok (Fin p)
  /\ exists i, (i < length l)%nat /\ x < lv l i - lv l 0 /\ lv q i < p.
Proof. exact deeper_crossing. Qed.
Print Assumptions C44_shallowest_refuted.

(** two levels of equal density at the threshold *)
Theorem C44_total_refuted :
  exists l q x, let S := map Fin l in let P := map Fin q in
  cast S S P 0 (length l) (lv l) (lv l) (lv q) /\ pot_density f1 (Fin 0) S S 0 (length l) (lv l)
  /\ (forall i, (Datatypes.S i < length l)%nat -> lv l i <= lv l (Datatypes.S i))
  /\ mixed_layer_1 f1 linear_interp_1 (Fin x) (Fin 0) 0 S S P = Err ZeroDivisionError.
Proof. exact flat_fails. Qed.
Print Assumptions C44_total_refuted.

(** the water interpolated at that pressure has another potential density *)
Theorem C44_water_refuted :
  exists l q x p s r r0, let S := map Fin l in let P := map Fin q in
  cast S S P 0 (length l) (lv l) (lv l) (lv q)
  /\ pot_density fsq (Fin 0) S S 0 (length l) (fun i => lv l i * lv l i)
  /\ (forall i, (Datatypes.S i < length l)%nat -> lv l i < lv l (Datatypes.S i))
  /\ mixed_layer_1 fsq linear_interp_1 (Fin x) (Fin 0) 0 S S P = Ok (Fin p)
  /\ linear_interp_1 (Fin p) P S 0 = Ok (Fin s)
  /\ fsq (Fin s) (Fin s) (Fin 0) = Ok (Fin r)
  /\ fsq (Fin (lv l 0)) (Fin (lv l 0)) (Fin 0) = Ok (Fin r0)
  /\ r - r0 <> x.
Proof. exact not_that_water. Qed.
Print Assumptions C44_water_refuted.

Example C44_ex :
  cast S3 S3 P3 0 3 (lv s3) (lv s3) (lv p3) /\ pot_density f1 (Fin 0) S3 S3 0 3 (lv s3)
  /\ py_index (length S3) (-4) 0 /\ (forall i, (0 <= i)%nat -> (S i < 3)%nat -> lv s3 i < lv s3 (S i))
  /\ excess (lv s3) 0 0 < 2 <= excess (lv s3) 0 (3 - 1).
Proof.
  split; [exact cast3|]. split; [apply density3|]. split; [apply index3|]. split; [exact sorted3|]. unfold excess, lv, s3. simpl. lra.
Qed.
Example C44_ex_named :
  cast Sw Tw Pw 0 2 (lv [34; 35]) (lv [20; 10]) (lv [0; 100]) /\ sea_water Sw Tw 0
  /\ density "jmd95" jm_rho /\ pressure_factor None (Some (Fin 1000)) 1 /\ ocean (69 / 2) 3 (1000 * 1).
Proof. exact sea. Qed.
Example C44_ex_missing : py_index (length S3) 3 3 /\ nth_error S3 3 = Some NaN /\ f1 NaN NaN (Fin 0) = Ok NaN
  /\ forall i s t, nth_error S3 i = Some s -> nth_error S3 i = Some t -> exists v, f1 s t (Fin 0) = Ok v.
Proof. exact missing3. Qed.
Example C44_ex_columns : exists out, mixed_layer S6 S6 P6 (AFun (F1 eosf)) None None (lit 1 0) (lit 0 0) 0 "linear" (VInt (-1)) = Ok out
  /\ shape out = [2]%nat /\ elems out = [lit 10 0; lit 5 0].
Proof. exact columns6. Qed.

Example C44_ex_pair : mixed_layer S6 S6 P6 (AFun (F2 (fun s t p => Ok (s, t)))) None None (lit 1 0) (lit 0 0) 0 "linear" (VInt (-1)) = Err TypeError.
Proof. exact pair_case. Qed.
Print Assumptions C44_ex_pair.
