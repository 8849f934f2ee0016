(** * The matrix problem of omega surfaces: examples *)
From Coq Require Import ZArith Bool List Lia Arith Reals Lra.
From Verif Require Import Num XR XRlemmas Res Arr M_ntp M_matsolve S_graph S_lib S_ntp S_matsolve P_linalg P_matsolve P_matsolve2 Ex_traj Ex_ntp.
Import ListNotations.
Local Open Scope R_scope.

(** two wet nodes and a dry one *)
Definition ex_water (i : nat) : R * R * R := match i with O => (1, 2, 0) | _ => (3, 4, 0) end.
Lemma ex_region : region ex_surface ex_edges [2; 3] [1; 0]%nat 0 ex_water.
Proof.
  constructor.
  - exact ex_edges_range.
  - split; [reflexivity|]. repeat constructor; lra.
  - split; [repeat constructor; simpl; lia|simpl; auto].
  - intros i [<-|[<-|[]]]; (eexists; split; [reflexivity|]); reflexivity.
  - assert (W : walk (linked ex_edges [2; 3]) (fun j => In j [1; 0]%nat) 0 0 0) by (constructor; simpl; auto).
    intros i [<-|[<-|[]]]; [exists 1%nat|exists 0%nat; assumption].
    econstructor; [exact W| |simpl; auto]. exists 0%nat, (0, 1)%nat, 2. split; [reflexivity|]. split; [reflexivity|]. split; [lra|]. left. reflexivity.
Qed.

Lemma ex_water_in : forall i, In i [1; 0]%nat -> water_in exD (ex_water i).
Proof. intros i [<-|[<-|[]]]; cbn; unfold upto; lra. Qed.

(** one edge: its error is removed *)
Lemma ex_poisson : matsolve_poisson exst ge_spsolve ex_surface ex_edges (Ar [Fin 2; Fin 3]) [1; 0]%nat 0 = Ok [Fin 0; Fin (-8); NaN].
Proof.
  destruct (poisson_correct exst _ _ exD (exst_on exD) _ _ _ _ _ _ ex_region ex_water_in ge_spsolve (Ar [Fin 2; Fin 3]) ge_spsolve_exact (proj1 ex_distances)) as (phi & E & f & L & Hin & Hout & H0 & Hmin & _).
  rewrite E. f_equal.
  pose proof (Hin 0%nat ltac:(simpl; auto)) as E0. pose proof (Hin 1%nat ltac:(simpl; auto)) as E1.
  pose proof (Hout 2%nat ltac:(simpl; lia) ltac:(simpl; lia)) as E2.
  specialize (Hmin (fun i => match i with O => 0 | _ => -8 end)). unfold objective in Hmin. simpl in Hmin. unfold water_error in Hmin. simpl in Hmin.
  destruct phi as [|a [|b [|c [|? ?]]]]; simpl in L; try discriminate. simpl in E0, E1, E2. rewrite H0 in *.
  injection E0 as ->. injection E1 as ->. injection E2 as ->. do 3 f_equal.
  assert (0 <= (f 1%nat + 8) * (f 1%nat + 8)) by apply Rle_0_sqr.
  assert (E3 : (f 1%nat + 8) * (f 1%nat + 8) = 0) by lra. apply Rmult_integral in E3. destruct E3; lra.
Qed.

Lemma matsolve_witness :
  exact_spsolve ge_spsolve /\ exact_lsqr ge_lsqr /\ eos_s_t_on exD exst (fun _ _ _ => 1) (fun _ t _ => t)
  /\ region ex_surface ex_edges [2; 3] [1; 0]%nat 0 ex_water /\ (forall i, In i [1; 0]%nat -> water_in exD (ex_water i))
  /\ distances (Ar [Fin 2; Fin 3]) 2 [2; 3]
  /\ matsolve_poisson exst ge_spsolve ex_surface ex_edges (Ar [Fin 2; Fin 3]) [1; 0]%nat 0 = Ok [Fin 0; Fin (-8); NaN].
Proof.
  split; [exact ge_spsolve_exact|]. split; [exact ge_lsqr_exact|]. split; [apply exst_on|]. split; [exact ex_region|]. split; [exact ex_water_in|].
  split; [apply ex_distances|exact ex_poisson].
Qed.
