(** * Static stability in binary64 *)
From Coq Require Import String ZArith Reals List SpecFloat.
From Verif Require Import Num XR SF Res Arr Nd M_lib M_eostools M_stability S_eos S_float S_domain S_named S_vertsolve
  S_lib S_mixed_layer S_surfaces S_vert64 S_entry64 S_stability S_stability64 P_stability64 P_stability64c Ex_vert64 Ex_entry64 Ex_ml64 Ex_stability64.
Import ListNotations.
Local Open Scope R_scope.

(** The count: pairs denser above than below by more than d are counted, those lighter above by more than d are not, and pairs of the same water are. *)
Theorem C69_count : forall name rho s0 d grav rho_c zp pm, named_eos name rho -> pair64 name s0 d -> coordinate64 grav rho_c zp pm ->
  forall S T P v s1 n s2 c c', water_columns S T P v s1 n s2 c ->
  (forall h, valid (s1 ++ s2) h -> holds_column (c h) (c' h) /\ known_levels (sea s0 pm) (c' h)) ->
  forall f, make_eos sdiv (AStr name) grav rho_c = Ok (F1 f) ->
  exists m (U : list nat -> nat -> Prop), count_unstable S T P None (Some f) None v = Ok m
    /\ number_of (fun x => let '(h1, h2, k) := x in valid s1 h1 /\ valid s2 h2 /\ (k + 1 < n)%nat /\ U (h1 ++ h2) k) m
    /\ forall h k, valid (s1 ++ s2) h -> (k + 1 < n)%nat ->
         (U h k -> exists x, denser (at_depth zp rho) (c' h) k x /\ - d <= x)
         /\ (forall x, denser (at_depth zp rho) (c' h) k x -> d < x -> U h k)
         /\ (same_water (c h) k -> U h k).
Proof. exact count64. Qed.
Print Assumptions C69_count.

(** The stabiliser, column by column, up to the first at which the optimiser fails. *)
Theorem C69_stabilize : forall name rho s0 d grav rho_c zp pm, named_eos name rho -> grad64 name s0 d -> coordinate64 grav rho_c zp pm ->
  forall S T P v s1 n s2 c c', water_columns S T P v s1 n s2 c ->
  (forall h, valid (s1 ++ s2) h -> holds_column (c h) (c' h) /\ sea_column (sea s0 pm) (c' h)) ->
  forall f, make_eos sdiv (AStr name) grav rho_c = Ok (F1 f) ->
  forall minimize eps md m w normal, 0 <= eps -> feasible64 eps minimize -> thresholds64 md n m -> (forall n, length (normal n) = n) ->
  exists s' t' e j, stabilize_ST minimize S T P f md w v normal = Ok (s', t', e)
    /\ shape s' = s1 ++ s2 ++ [n] /\ shape t' = s1 ++ s2 ++ [n] /\ wf s' /\ wf t'
    /\ (e = None -> j = prod (s1 ++ s2))
    /\ (forall x, e = Some x -> exists h k K ss ts ps, valid (s1 ++ s2) h /\ ravel (s1 ++ s2) h = j
          /\ profile (fst (fst (c' h))) (snd (fst (c' h))) (snd (c' h)) k K ss ts ps
          /\ ~ stable (at_depth zp rho) (lower m 0 (- d) ps) k K ss ts ps
          /\ exists con, minimize objective (firstn (2 * (K - k)) (normal (2 * n)%nat)) w jac con = Err x
               \/ exists y, minimize objective (firstn (2 * (K - k)) (normal (2 * n)%nat)) w jac con = Ok (false, y) /\ x = RuntimeError)
    /\ forall h, valid (s1 ++ s2) h ->
         exists sn tn, cast_at (at_ s') n h [] sn /\ cast_at (at_ t') n h [] tn
           /\ ((ravel (s1 ++ s2) h < j)%nat -> stabilized64 (at_depth zp rho) (sea s0 pm) m eps d (c' h) (fst (fst (c h))) (snd (fst (c h))) sn tn)
           /\ ((j <= ravel (s1 ++ s2) h)%nat -> sn = fst (fst (c h)) /\ tn = snd (fst (c h))).
Proof. exact stabilize64. Qed.
Print Assumptions C69_stabilize.

(** After a run without failure, no unstable pairs are counted, if the thresholds exceed the tolerance of the optimiser and the rounding. *)
Theorem C69_none_unstable : forall name rho s0 d dp grav rho_c zp pm, named_eos name rho -> grad64 name s0 d -> pair64 name s0 dp -> coordinate64 grav rho_c zp pm ->
  forall S T P v s1 n s2 c c', water_columns S T P v s1 n s2 c ->
  (forall h, valid (s1 ++ s2) h -> holds_column (c h) (c' h) /\ sea_column (sea s0 pm) (c' h) /\ no_gap (fst (fst (c' h)))) ->
  forall f, make_eos sdiv (AStr name) grav rho_c = Ok (F1 f) ->
  forall minimize eps md m w normal, 0 <= eps -> feasible64 eps minimize -> thresholds64 md n m -> (forall n, length (normal n) = n) ->
  (forall i, (i + 1 < n)%nat -> (1 + powerRZ 2 (-50)) * eps + 1000 * (d + dp) < m i) ->
  forall s' t', stabilize_ST minimize S T P f md w v normal = Ok (s', t', None) ->
  forall S2 T2 c2 c2', water_columns S2 T2 P v s1 n s2 c2 ->
  (forall h, valid (s1 ++ s2) h -> cast_at (at_ s') n h [] (fst (fst (c2 h))) /\ cast_at (at_ t') n h [] (snd (fst (c2 h))) /\ snd (c2 h) = snd (c h)
     /\ holds_column (c2 h) (c2' h) /\ known_levels (sea s0 pm) (c2' h)
     /\ forall k K ss ts ps, profile (fst (fst (c' h))) (snd (fst (c' h))) (snd (c' h)) k K ss ts ps ->
          exists ss' ts', holds_water (fst (fst (c2 h))) (snd (fst (c2 h))) k K ss' ts' /\ waters (sea s0 pm) k K ss' ts') ->
  count_unstable S2 T2 P None (Some f) None v = Ok 0%nat.
Proof. exact none64. Qed.
Print Assumptions C69_none_unstable.

(** ** Cases that meet the hypotheses *)
Example C69_hypotheses :
  named_eos "jmd95" jm_rho /\ pair64 "jmd95" (/ 1000) (dec 6 (-12)) /\ grad64 "jmd95" (/ 1000) (dec 8 (-12)) /\ coordinate64 None None 1 10000
  /\ make_eos sdiv (AStr "jmd95") None None = Ok (F1 jm64)
  /\ water_columns eS eT eP (VInt (-1)) [2%nat] 4 [] ecol
  /\ (forall h, valid ([2%nat] ++ []) h -> holds_column (ecol h) (ecol' h) /\ known_levels (sea (/ 1000) 10000) (ecol' h))
  /\ water_columns uS uT uP (VInt 0) [] 3 [] (fun _ => colU)
  /\ (forall h : list nat, holds_column colU colU' /\ known_levels (sea (/ 1000) 10000) colU' /\ sea_column (sea (/ 1000) 10000) colU' /\ no_gap (fst (fst colU')))
  /\ feasible64 0 (try_min cooler) /\ thresholds64 (Scalar thr) 3 (fun _ => fval thr) /\ (forall n, length (zeros64 n) = n)
  /\ (forall i, (i + 1 < 3)%nat -> (1 + powerRZ 2 (-50)) * 0 + 1000 * (dec 8 (-12) + dec 6 (-12)) < fval thr)
  /\ water_columns vS vT uP (VInt 0) [] 3 [] (fun _ => colV)
  /\ (forall h, valid ([] ++ []) h -> cast_at (at_ (mk_nd [3%nat] (fst (fst colV)))) 3 h [] (fst (fst colV))
       /\ cast_at (at_ (mk_nd [3%nat] (snd (fst colV)))) 3 h [] (snd (fst colV)) /\ snd colV = snd colU
       /\ holds_column colV colV' /\ known_levels (sea (/ 1000) 10000) colV'
       /\ forall k K ss ts ps, profile (fst (fst colU')) (snd (fst colU')) (snd colU') k K ss ts ps ->
            exists ss' ts', holds_water (fst (fst colV)) (snd (fst colV)) k K ss' ts' /\ waters (sea (/ 1000) 10000) k K ss' ts').
Proof. exact stability64_case. Qed.
Example C69_counts : run_count = (Ok 0%nat, Ok 1%nat).
Proof. exact run_counts. Qed.
Example C69_run : stabilize_ST (try_min cooler) uS uT uP jm64 (Scalar thr) (lit 10 0) (VInt 0) zeros64
  = Ok (mk_nd [3%nat] (fst (fst colV)), mk_nd [3%nat] (snd (fst colV)), None)
  /\ stabilize_ST (try_min (zeros64 6)) uS uT uP jm64 (Scalar thr) (lit 10 0) (VInt 0) zeros64
  = Ok (mk_nd [3%nat] (fst (fst colU)), mk_nd [3%nat] (snd (fst colU)), Some RuntimeError)
  /\ count_unstable vS vT uP None (Some jm64) None (VInt 0) = Ok 0%nat.
Proof. split; [exact (proj1 run_stabilize)|]. split; [exact (proj2 run_stabilize)|exact run_after]. Qed.
