(** * Property C45: static stability (stability.py) *)
From Coq Require Import String ZArith Bool Reals Lra Lia List.
From Verif Require Import Num XR SF Res Arr Nd M_lib M_ppinterp S_lib S_traj M_mixed_layer S_mixed_layer M_stability S_stability
  P_stability P_stability2 P_stability3 P_stability4 Ex_stability.
Import ListNotations.

(** ** count_unstable

    The arrays have the n levels on the axis after those of s1; [Px] is P, repeated for every cast
    if one-dimensional.  The result is the number of vertically adjacent pairs in the wrong order. *)
Theorem C45_count :
  forall (S T P : data) v s1 s2 n eos rho,
  wf (arr S) -> wf (arr T) -> wf (arr P) ->
  shape (arr S) = s1 ++ n :: s2 -> shape (arr T) = s1 ++ n :: s2 -> (shape (arr P) = s1 ++ n :: s2 \/ shape (arr P) = [n]) ->
  process_vert_dim v S = Ok (length s1) ->
  no_inf (arr S) -> no_inf (arr T) -> no_inf (arr P) -> sea_eos eos rho ->
  exists c, count_unstable S T P None (Some eos) None v = Ok c
    /\ number_of (fun x => let '(h1, h2, k) := x in valid s1 h1 /\ valid s2 h2 /\ k + 1 < n
                    /\ wrong_order rho (at_ (arr S)) (at_ (arr T)) (Px S P s1) h1 h2 k) c.
Proof. exact count_pairs. Qed.
Print Assumptions C45_count.

(** with interpolants: the number of bottles, but for the last of each cast, where density falls downwards *)
Theorem C45_count_bottles :
  forall (S T P : data) v s1 s2 n g f,
  wf (arr S) -> wf (arr T) -> wf (arr P) ->
  shape (arr S) = s1 ++ n :: s2 -> shape (arr T) = s1 ++ n :: s2 -> (shape (arr P) = s1 ++ n :: s2 \/ shape (arr P) = [n]) ->
  process_vert_dim v S = Ok (length s1) ->
  (forall pk p s t, exists ds dt, g pk p s t 1 = Ok (ds, dt) /\ not_inf ds /\ not_inf dt) ->
  (forall s t p, exists rs rt, f s t p = Ok (rs, rt) /\ not_inf rs /\ not_inf rt) ->
  exists c, count_unstable S T P (Some g) None (Some f) v = Ok c
    /\ number_of (fun x => let '(h1, h2, k) := x in valid s1 h1 /\ valid s2 h2 /\ k + 1 < n
         /\ exists s t p, cast_at (at_ (arr S)) n h1 h2 s /\ cast_at (at_ (arr T)) n h1 h2 t /\ cast_at (Px S P s1) n h1 h2 p /\ falling g f s t p k) c.
Proof. exact count_bottles. Qed.
Print Assumptions C45_count_bottles.

(** "at each bottle": not the last, where density may fall; and the top pair may count twice *)
Theorem C45_each_bottle_refuted :
  let P := dat [3] [q 0; q 10; q 20] in let T := dat [3] [q 0; q 0; q 0] in
  let S := dat [3] [q 0; q 1; q 0] in let S' := dat [3] [q 1; q 0; q 1] in
  count_unstable S T P (Some linear_interp_1_two) None (Some lin_eos_s_t) (VInt (-1)) = Ok 0
  /\ unstable_grad linear_interp_1_two lin_eos_s_t 2 ([q 0; q 1; q 0], [q 0; q 0; q 0], [q 0; q 10; q 20]) = Ok true
  /\ count_unstable S T P None (Some lin_eos) None (VInt (-1)) = Ok 1
  /\ count_unstable S' T P (Some linear_interp_1_two) None (Some lin_eos_s_t) (VInt (-1)) = Ok 2
  /\ count_unstable S' T P None (Some lin_eos) None (VInt (-1)) = Ok 1.
Proof. exact bottles. Qed.
Print Assumptions C45_each_bottle_refuted.

(** [eos], or with interpolants [eos_s_t], is needed where there are two levels *)
Theorem C45_missing_eos :
  forall F (N : Num F) (S T P : data) v s1 s2 n g eos eos_s_t,
  wf (arr S) -> wf (arr T) -> wf (arr P) ->
  shape (arr S) = s1 ++ n :: s2 -> shape (arr T) = s1 ++ n :: s2 -> (shape (arr P) = s1 ++ n :: s2 \/ shape (arr P) = [n]) ->
  process_vert_dim v S = Ok (length s1) ->
  (n <= 1 -> forall interp_two eos eos_s_t, count_unstable S T P interp_two eos eos_s_t v = Ok 0)
  /\ (2 <= n -> count_unstable S T P None None eos_s_t v = Err TypeError)
  /\ (2 <= n -> (forall pk p s t, exists d, g pk p s t 1 = Ok d) -> count_unstable S T P (Some g) eos None v = Err TypeError).
Proof. exact @count_missing. Qed.
Print Assumptions C45_missing_eos.

(** ** stabilize_ST

    Casts are treated in row-major order, up to the j-th, at which the optimiser failed (if e is an
    exception) or to the end.  Those treated are stabilised: untouched if nothing is known or the
    thresholds are met, else changed at the known levels only so that the thresholds are met within
    eps, and as little as possible if the optimiser is optimal.  The others are unchanged. *)
Theorem C45_stabilize :
  forall minimize eps eos rho w wr md m normal (S T P : data) v s1 s2 n,
  wf (arr S) -> wf (arr T) -> wf (arr P) ->
  shape (arr S) = s1 ++ n :: s2 -> shape (arr T) = s1 ++ n :: s2 -> (shape (arr P) = s1 ++ n :: s2 \/ shape (arr P) = [n]) ->
  process_vert_dim v S = Ok (length s1) -> n <> 0 -> w = Fin wr ->
  eos_real eos rho -> thresholds md n m -> (forall n, length (normal n) = n) -> feasible eps minimize ->
  (forall h1 h2 s t p, valid s1 h1 -> valid s2 h2 ->
     cast_at (at_ (arr S)) n h1 h2 s -> cast_at (at_ (arr T)) n h1 h2 t -> cast_at (Px S P s1) n h1 h2 p -> any_profile s t p) ->
  exists s' t' e j, stabilize_ST minimize S T P eos md w v normal = Ok (s', t', e)
    /\ shape s' = s1 ++ s2 ++ [n] /\ shape t' = s1 ++ s2 ++ [n] /\ wf s' /\ wf t'
    /\ (e = None -> j = prod (s1 ++ s2))
    /\ (forall x, e = Some x -> exists h1 h2 s t p k K ss ts ps, valid s1 h1 /\ valid s2 h2 /\ ravel (s1 ++ s2) (h1 ++ h2) = j
          /\ cast_at (at_ (arr S)) n h1 h2 s /\ cast_at (at_ (arr T)) n h1 h2 t /\ cast_at (Px S P s1) n h1 h2 p
          /\ profile s t p k K ss ts ps /\ ~ stable rho m k K ss ts ps
          /\ exists c, constraint_of rho m k K ss ts ps c
               /\ (minimize objective (firstn (2 * (K - k)) (normal (2 * n))) w jac c = Err x
                   \/ exists y, minimize objective (firstn (2 * (K - k)) (normal (2 * n))) w jac c = Ok (false, y) /\ x = RuntimeError))
    /\ forall h1 h2 s t p, valid s1 h1 -> valid s2 h2 ->
         cast_at (at_ (arr S)) n h1 h2 s -> cast_at (at_ (arr T)) n h1 h2 t -> cast_at (Px S P s1) n h1 h2 p ->
         exists sn tn, cast_at (at_ s') n (h1 ++ h2) [] sn /\ cast_at (at_ t') n (h1 ++ h2) [] tn
           /\ (ravel (s1 ++ s2) (h1 ++ h2) < j -> stabilized rho m eps wr (optimal minimize) s t p sn tn)
           /\ (j <= ravel (s1 ++ s2) (h1 ++ h2) -> sn = s /\ tn = t).
Proof. exact stabilize_whole. Qed.
Print Assumptions C45_stabilize.

(** ** After a successful run on casts without gaps, with thresholds above eps, no pair is counted unstable *)
Theorem C45_none_unstable :
  forall minimize eps eos rho w wr md m normal (S T P S2 T2 : data) v s1 s2 n s' t',
  wf (arr S) -> wf (arr T) -> wf (arr P) ->
  shape (arr S) = s1 ++ n :: s2 -> shape (arr T) = s1 ++ n :: s2 -> (shape (arr P) = s1 ++ n :: s2 \/ shape (arr P) = [n]) ->
  process_vert_dim v S = Ok (length s1) -> n <> 0 -> w = Fin wr ->
  eos_real eos rho -> thresholds md n m -> (forall n, length (normal n) = n) -> feasible eps minimize ->
  (forall h1 h2 s t p, valid s1 h1 -> valid s2 h2 ->
     cast_at (at_ (arr S)) n h1 h2 s -> cast_at (at_ (arr T)) n h1 h2 t -> cast_at (Px S P s1) n h1 h2 p -> any_profile s t p) ->
  stabilize_ST minimize S T P eos md w v normal = Ok (s', t', None) ->
  wf (arr S2) -> wf (arr T2) -> shape (arr S2) = s1 ++ n :: s2 -> shape (arr T2) = s1 ++ n :: s2 -> process_vert_dim v S2 = Ok (length s1) ->
  (forall h1 k h2, valid s1 h1 -> k < n -> valid s2 h2 -> at_ (arr S2) (h1 ++ k :: h2) = at_ s' (h1 ++ h2 ++ [k])) ->
  (forall h1 k h2, valid s1 h1 -> k < n -> valid s2 h2 -> at_ (arr T2) (h1 ++ k :: h2) = at_ t' (h1 ++ h2 ++ [k])) ->
  (forall h1 h2 s, valid s1 h1 -> valid s2 h2 -> cast_at (at_ (arr S)) n h1 h2 s -> no_gap s) ->
  (forall i, i + 1 < n -> (0 < m i - eps)%R) -> (0 <= eps)%R -> sea_eos eos rho -> no_inf (arr S) -> no_inf (arr T) -> no_inf (arr P) ->
  count_unstable S2 T2 P None (Some eos) None v = Ok 0.
Proof. exact none_unstable. Qed.
Print Assumptions C45_none_unstable.

(** a gap in the cast breaks it *)
Theorem C45_gap_refuted :
  exists s' t', stabilize_ST fmin (dat [5] [q 0; q 1; nan; q 3; q 2]) (dat [5] [q 0; q 0; nan; q 0; q 0]) (dat [5] [q 0; q 10; q 20; q 30; q 40])
    lin_eos (Scalar (lit 1 (-2))) (q 10) (VInt (-1)) fzeros = Ok (s', t', None)
  /\ count_unstable (mk_data s' None []) (mk_data t' None []) (dat [5] [q 0; q 10; q 20; q 30; q 40]) None (Some lin_eos) None (VInt (-1)) = Ok 1.
Proof. exact gap_left. Qed.
Print Assumptions C45_gap_refuted.

(** and so does the threshold 0 *)
Theorem C45_zero_threshold_refuted :
  exists s' t', stabilize_ST fmin (dat [2] [q 1; q 1]) (dat [2] [q 0; q 0]) p_two lin_eos (Scalar (q 0)) (q 10) (VInt (-1)) fzeros = Ok (s', t', None)
  /\ count_unstable (mk_data s' None []) (mk_data t' None []) p_two None (Some lin_eos) None (VInt (-1)) = Ok 1.
Proof. exact equal_left. Qed.
Print Assumptions C45_zero_threshold_refuted.

(** ** A second run changes nothing, if the optimiser is exact *)
Theorem C45_second_run :
  forall minimize eps eos rho w wr md m normal (S T P S2 T2 : data) v s1 s2 n s' t',
  wf (arr S) -> wf (arr T) -> wf (arr P) ->
  shape (arr S) = s1 ++ n :: s2 -> shape (arr T) = s1 ++ n :: s2 -> (shape (arr P) = s1 ++ n :: s2 \/ shape (arr P) = [n]) ->
  process_vert_dim v S = Ok (length s1) -> n <> 0 -> w = Fin wr ->
  eos_real eos rho -> thresholds md n m -> (forall n, length (normal n) = n) -> feasible eps minimize ->
  (forall h1 h2 s t p, valid s1 h1 -> valid s2 h2 ->
     cast_at (at_ (arr S)) n h1 h2 s -> cast_at (at_ (arr T)) n h1 h2 t -> cast_at (Px S P s1) n h1 h2 p -> any_profile s t p) ->
  stabilize_ST minimize S T P eos md w v normal = Ok (s', t', None) ->
  wf (arr S2) -> wf (arr T2) -> shape (arr S2) = s1 ++ n :: s2 -> shape (arr T2) = s1 ++ n :: s2 -> process_vert_dim v S2 = Ok (length s1) ->
  (forall h1 k h2, valid s1 h1 -> k < n -> valid s2 h2 -> at_ (arr S2) (h1 ++ k :: h2) = at_ s' (h1 ++ h2 ++ [k])) ->
  (forall h1 k h2, valid s1 h1 -> k < n -> valid s2 h2 -> at_ (arr T2) (h1 ++ k :: h2) = at_ t' (h1 ++ h2 ++ [k])) ->
  (eps <= 0)%R ->
  stabilize_ST minimize S2 T2 P eos md w v normal = Ok (s', t', None).
Proof. exact second_run. Qed.
Print Assumptions C45_second_run.

(** ** A failure is not undone: casts treated before it stay changed *)
Theorem C45_all_or_nothing_refuted :
  exists s' t', stabilize_ST fmin (dat [2; 3] [q 1; q 0; nan; q 3; q 2; q 1]) (dat [2; 3] [q 0; q 0; nan; q 0; q 0; q 0]) (dat [3] [q 0; q 10; q 20])
    lin_eos (Scalar (lit 1 (-2))) (q 10) (VInt (-1)) fzeros = Ok (s', t', Some RuntimeError)
  /\ s' = mk_nd [2; 3] [q 0; q 1; nan; q 3; q 2; q 1].
Proof. exact half_done. Qed.
Print Assumptions C45_all_or_nothing_refuted.

(** ** The user's array a, which holds x, once the working array was overwritten with y *)
Theorem C45_in_place :
  forall (F : Type) (a : @ndarray F) (x : nd F) s1 s2 n, represents a x -> shape x = s1 ++ n :: s2 -> wf x ->
  forall y, shape y = s1 ++ s2 ++ [n] -> wf y -> shared a (length s1) = true ->
  forall h1 k h2, valid s1 h1 -> k < n -> valid s2 h2 -> value (after a (length s1) y) (h1 ++ k :: h2) = at_ y (h1 ++ h2 ++ [k]).
Proof. exact @in_place. Qed.
Print Assumptions C45_in_place.

(** float64 arrays in C order: in place if the vertical dimension is last, lost if another
    dimension comes after it *)
Theorem C45_c_order :
  forall (F : Type) (a : @ndarray F) (x : nd F) s1 s2 n, represents a x -> shape x = s1 ++ n :: s2 ->
  is_f64 a = true -> strides a = c_strides (dimens a) ->
  (s2 = [] -> shared a (length s1) = true)
  /\ (2 <= n -> 2 <= prod s2 -> prod s1 <> 0 -> shared a (length s1) = false).
Proof. exact @c_order_shared. Qed.
Print Assumptions C45_c_order.

(** "Mutate S, T": the result is lost when the array has to be copied *)
Theorem C45_in_place_refuted :
  represents a_first (arr s_first) /\ is_f64 a_first = true /\ strides a_first = c_strides (dimens a_first)
  /\ exists s' t', stabilize_ST fmin s_first t_first p_two lin_eos (Scalar (lit 1 (-2))) (q 10) (VInt 0) fzeros = Ok (s', t', None)
  /\ at_ s' [0; 0] = Some (q 0) /\ value a_first [0; 0] = Some (q 1) /\ after a_first 0 s' = a_first.
Proof. exact (conj a_first_represents (conj eq_refl (conj eq_refl lost))). Qed.
Print Assumptions C45_in_place_refuted.

(** ** The derivative passed to the optimiser is that of the objective *)
Theorem C45_gradient :
  forall w dx n j, length dx = (2 * n)%nat -> (j < 2 * n)%nat ->
  derivable_pt_lim (fun u => objective w (upd dx j u)) (nth j dx 0%R) (nth j (jac w dx) 0%R).
Proof. exact jac_gradient. Qed.
Print Assumptions C45_gradient.

(** ** Concrete cases *)
Example C45_count_case : exists c, count_unstable sx tx px None (Some lin_eos) None (VInt (-1)) = Ok c /\ wrong_order lin_rho (at_ (arr sx)) (at_ (arr tx)) (Px sx px [2]) [0] [] 0.
Proof.
  destruct (C45_count sx tx px (VInt (-1)) [2] [] 3 lin_eos lin_rho) as (c & E & _); try reflexivity; try noinf; [right; reflexivity|exact lin_sea|].
  exists c. split; [exact E|]. exists 1%R, 0%R, 0%R, 0%R, 0%R, 10%R. repeat split. unfold lin_rho. lra.
Qed.

Example C45_missing_eos_case : count_unstable sx tx px None None None (VInt (-1)) = Err TypeError
  /\ count_unstable sx tx px (Some (fun _ _ _ _ _ => Ok (Fin (-1), Fin 0))) (Some lin_eos) None (VInt (-1)) = Err TypeError.
Proof.
  destruct (C45_missing_eos xr xrNum sx tx px (VInt (-1)) [2] [] 3 (fun _ _ _ _ _ => Ok (Fin (-1), Fin 0)) (Some lin_eos) None) as (_ & A & B);
    try reflexivity; [right; reflexivity|]. split; [apply A; lia|apply B; [lia|]]. intros. exists (Fin (-1), Fin 0). reflexivity.
Qed.

Example C45_stabilize_case : exists s' t', stabilize_ST (guarded cand) sx tx px lin_eos md10 (Fin 1) (VInt (-1)) zeros = Ok (s', t', None)
  /\ count_unstable (mk_data s' None []) (mk_data t' None []) px None (Some lin_eos) None (VInt (-1)) = Ok 0
  /\ stabilize_ST (guarded cand) (mk_data s' None []) (mk_data t' None []) px lin_eos md10 (Fin 1) (VInt (-1)) zeros = Ok (s', t', None).
Proof.
  destruct run_ok as (s' & t' & E). exists s', t'. split; [exact E|].
  assert (F : feasible 0 (guarded cand)) by (apply guarded_feasible; exact cand_fin).
  assert (A : forall h1 h2 s t p, valid [2] h1 -> valid [] h2 -> cast_at (at_ (arr sx)) 3 h1 h2 s -> cast_at (at_ (arr tx)) 3 h1 h2 t ->
     cast_at (Px sx px [2]) 3 h1 h2 p -> any_profile s t p) by (intros h1 h2 s t p H1 H2 X Y Z; apply (any_xp h1 h2 s t p H1 H2 X Y Z)).
  destruct (C45_stabilize (guarded cand) 0 lin_eos lin_rho (Fin 1) 1 md10 tenth zeros sx tx px (VInt (-1)) [2] [] 3)
    as (s2 & t2 & e & j & E2 & Ss & St & Ws & Wt & _); try reflexivity; try discriminate; try (right; reflexivity); try exact F; try exact A;
    [apply lin_sea|intros i; reflexivity|intros n; apply repeat_length|]. rewrite E in E2. injection E2 as <- <- <-.
  assert (V : process_vert_dim (VInt (-1)) (mk_data s' None []) = Ok 1) by (unfold process_vert_dim, ndim; cbn [arr dims]; rewrite Ss; reflexivity).
  assert (I : forall (z : nd xr) h1 k h2, valid [2] h1 -> k < 3 -> valid [] h2 -> at_ z (h1 ++ k :: h2) = at_ z (h1 ++ h2 ++ [k])).
  { intros z h1 k h2 _ _ V2. inversion V2. reflexivity. }
  assert (G : forall h1 h2 s, valid [2] h1 -> valid [] h2 -> cast_at (at_ (arr sx)) 3 h1 h2 s -> no_gap s).
  { intros h1 h2 s H1 H2 X.
    destruct (casts_ready sx tx px (VInt (-1)) [2] [] 3) as (a & b & c & _ & _ & _ & _ & Hc); try reflexivity; [right; reflexivity|].
    destruct (Hc h1 h2 H1 H2) as (_ & Y & Z). apply (any_xp h1 h2 s _ _ H1 H2 X Y Z). }
  split.
  - apply (C45_none_unstable (guarded cand) 0 lin_eos lin_rho (Fin 1) 1 md10 tenth zeros sx tx px (mk_data s' None []) (mk_data t' None []) (VInt (-1)) [2] [] 3 s' t');
      try reflexivity; try discriminate; try assumption; try (right; reflexivity); try noinf; try (apply lin_sea); try (intro i; reflexivity);
      try (intros; apply repeat_length); try (apply I); try lra; intros; unfold tenth; lra.
  - apply (C45_second_run (guarded cand) 0 lin_eos lin_rho (Fin 1) 1 md10 tenth zeros sx tx px (mk_data s' None []) (mk_data t' None []) (VInt (-1)) [2] [] 3 s' t');
      try reflexivity; try discriminate; try assumption; try (right; reflexivity); try (apply lin_sea); try (intro i; reflexivity);
      try (intros; apply repeat_length); try (apply I); lra.
Qed.

Example C45_count_bottles_case : exists c, count_unstable sx tx px (Some (fun _ _ _ _ _ => Ok (Fin (-1), Fin 0))) None (Some (fun _ _ _ => Ok (Fin 1, Fin 0))) (VInt (-1)) = Ok c.
Proof.
  destruct (C45_count_bottles sx tx px (VInt (-1)) [2] [] 3 (fun _ _ _ _ _ => Ok (Fin (-1), Fin 0)) (fun _ _ _ => Ok (Fin 1, Fin 0))) as (c & E & _);
    try reflexivity; [right; reflexivity| | |exists c; exact E].
  - intros. exists (Fin (-1)), (Fin 0). repeat split; right; eexists; reflexivity.
  - intros. exists (Fin 1), (Fin 0). repeat split; right; eexists; reflexivity.
Qed.

Example C45_optimal_case : feasible 0 (ideal cand) /\ optimal (ideal cand).
Proof. exact (ideal_feasible cand cand_fin). Qed.

Example C45_in_place_case : represents a_first (arr s_first) /\ shared a_first 1 = true
  /\ forall h1 k, valid [2] h1 -> k < 2 -> value (after a_first 1 (mk_nd [2; 2] [q 5; q 6; q 7; q 8])) (h1 ++ [k]) = at_ (mk_nd [2; 2] [q 5; q 6; q 7; q 8]) (h1 ++ [k]).
Proof.
  split; [exact a_first_represents|]. split; [reflexivity|]. intros h1 k V K.
  apply (C45_in_place f64 a_first (arr s_first) [2] [] 2 a_first_represents eq_refl eq_refl (mk_nd [2; 2] [q 5; q 6; q 7; q 8]) eq_refl eq_refl eq_refl h1 k [] V K). constructor.
Qed.
