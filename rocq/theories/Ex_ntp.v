(** * Neutrality errors: examples *)
From Coq Require Import ZArith Bool List Reals Lra SpecFloat.
From Verif Require Import Num XR XRlemmas SF Res Arr M_lib M_ntp S_graph S_lib S_ntp P_domain P_ntp Ex_traj.
Import ListNotations.
Local Open Scope R_scope.

(** drho/ds = 1, drho/dt = t *)
Definition exst (s t p : xr) : res (xr * xr) := Ok (lift3 (fun _ _ _ => 1) s t p, lift3 (fun _ t _ => t) s t p).
Lemma exst_on D : eos_s_t_on D exst (fun _ _ _ => 1) (fun _ t _ => t).
Proof. intros s t p _ _ _. reflexivity. Qed.
Lemma exst_nan : nan_safe exst.
Proof. intros s t p _. eexists. reflexivity. Qed.

Definition ex_surface : list bottle := [(Fin 1, Fin 2, Fin 0); (Fin 3, Fin 4, Fin 0); (NaN, NaN, NaN)].
Definition ex_edges := [(0, 1); (1, 2)]%nat.
Lemma ex_edges_range : in_range ex_edges (length ex_surface).
Proof. intros a b [E|[E|[]]]; injection E as <- <-; simpl; split; repeat constructor. Qed.
Lemma ex_surface_in : forall x, In x ex_surface -> bottle_in exD x \/ missing x.
Proof.
  intros x [<-|[<-|[<-|[]]]]; [left; exists 1, 2, 0|left; exists 3, 4, 0|right; cbn; auto]; (split; [reflexivity|]); cbn; unfold upto; lra.
Qed.
Lemma ex_distances : distances (Ar [Fin 2; Fin 3]) 2 [2; 3] /\ distances (Sc (Fin 5)) 2 [5; 5].
Proof. split; (split; [reflexivity|]); [left; reflexivity|right; exists 5; split; reflexivity]. Qed.

Lemma ex_errors : ntp_epsilon_error1 exst ex_surface ex_edges = Ok [Fin 8; NaN].
Proof.
  unfold ntp_epsilon_error1, ex_edges, ex_surface. cbn [mapM get nth_error fst snd bind].
  rewrite (epsilon_1_real exst everywhere _ _ _ _ (1, 2, 0) (3, 4, 0) (exst_on _) eq_refl eq_refl ltac:(cbn; auto) ltac:(cbn; auto)). cbn [bind].
  rewrite epsilon_1_dry; [|exact exst_nan|right; left; reflexivity]. cbn [bind]. do 3 f_equal. unfold water_error. lra.
Qed.
Lemma ex_samples : samples [Fin 8; NaN] [2; 3] [5; 5] = [(2 * 5, 8 / 2)].
Proof. reflexivity. Qed.

(** binary64: drho/ds = drho/dt = 1 *)
Definition fst1 (s t p : f64) : res (f64 * f64) := Ok (one, one).
Definition fl (m : Z) : f64 := lit m 0.
Definition f_surface : list (f64 * f64 * f64) := [(fl 1, fl 2, fl 0); (fl 3, fl 4, fl 0); (nan, nan, nan)].

Lemma run_norms :
  ntp_epsilon_errors_norms fst1 f_surface (GDict (Some ex_edges) (Some (Ar [fl 2; fl 3])) (Some (Sc (fl 5)))) = Ok (fl 2, fl 2).
Proof. vm_compute. reflexivity. Qed.
Lemma run_nan_distance :
  ntp_epsilon_errors_norms fst1 f_surface (GDict (Some ex_edges) (Some (Ar [fl 2; nan])) (Some (Sc (fl 5)))) = Ok (nan, nan).
Proof. vm_compute. reflexivity. Qed.
Lemma run_missing :
  ntp_epsilon_errors_norms fst1 f_surface (GDict (Some ex_edges) None (Some (Sc (fl 5)))) = Err KeyError
  /\ ntp_epsilon_errors_norms fst1 f_surface (GDict (Some ex_edges) (Some (Sc (fl 2))) None) = Err KeyError
  /\ ntp_epsilon_errors fst1 f_surface (GDict (Some ex_edges) None None) = Ok [fl 4; nan].
Proof. vm_compute. split; [reflexivity|]. split; reflexivity. Qed.

Lemma missing_refuted : exists (stp : list (f64 * f64 * f64)) edges w d,
    ntp_epsilon_errors_norms fst1 stp (GDict (Some edges) None (Some w)) = Err KeyError
    /\ ntp_epsilon_errors_norms fst1 stp (GDict (Some edges) (Some d) None) = Err KeyError
    /\ is_ok (ntp_epsilon_errors fst1 stp (GDict (Some edges) None None)) = true.
Proof.
  exists f_surface, ex_edges, (Sc (fl 5)), (Sc (fl 2)). destruct run_missing as (H1 & H2 & H3). rewrite H3. auto.
Qed.
Lemma nan_distance_refuted : exists (stp : list (f64 * f64 * f64)) edges d d' w,
    ntp_epsilon_errors_norms fst1 stp (GDict (Some edges) (Some (Ar [d; d'])) (Some w)) = Ok (fl 2, fl 2)
    /\ ntp_epsilon_errors_norms fst1 stp (GDict (Some edges) (Some (Ar [d; nan])) (Some w)) = Ok (nan, nan)
    /\ nth_error stp 2 = Some (nan, nan, nan) /\ edges = [(0, 1); (1, 2)]%nat.
Proof.
  exists f_surface, ex_edges, (fl 2), (fl 3), (Sc (fl 5)). split; [exact run_norms|]. split; [exact run_nan_distance|]. split; reflexivity.
Qed.
Lemma ntp_witness : eos_s_t_on exD exst (fun _ _ _ => 1) (fun _ t _ => t) /\ nan_safe exst
  /\ (forall x, In x ex_surface -> bottle_in exD x \/ missing x)
  /\ in_range ex_edges (length ex_surface)
  /\ distances (Ar [Fin 2; Fin 3]) 2 [2; 3] /\ distances (Sc (Fin 5)) 2 [5; 5]
  /\ ntp_epsilon_errors exst ex_surface (GTuple ex_edges) = Ok [Fin 8; NaN]
  /\ samples [Fin 8; NaN] [2; 3] [5; 5] = [(2 * 5, 8 / 2)] /\ total [(2 * 5, 8 / 2)] <> 0.
Proof.
  split; [apply exst_on|]. split; [exact exst_nan|]. split; [exact ex_surface_in|]. split; [exact ex_edges_range|]. split; [apply ex_distances|].
  split; [apply ex_distances|]. split; [rewrite errors_unit; exact ex_errors|]. split; [exact ex_samples|]. unfold total. simpl. lra.
Qed.
