(** * The omega driver: examples *)
From Coq Require Import String ZArith Bool List SpecFloat Lia Reals Lra.
From Verif Require Import Num XR SF XRlemmas Res Arr M_graph M_lib M_ppinterp M_traj M_bfs M_ntp M_matsolve M_vertsolve M_omega
  S_graph S_interp S_traj S_vertsolve S_lib S_ntp S_matsolve S_omega P_traj P_linalg P_matsolve P_matsolve2 P_case P_omega_interp Ex_ppinterp Ex_traj Ex_ntp.
Import ListNotations.

(** ** the hypotheses of the exact theorem can be met *)
Definition ox_casts : list column := [(exY, exT, exX); (exY, exT, exX)].
Definition ox_opt : @options xr := mkOptions true 1 10 1 5 1 (Fin 1) (Fin 1) (Fin 0) "Poisson".

Lemma block_range X Y k K xs ys k' K' xs' ys' : block X Y k K xs ys -> block X Y k' K' xs' ys' -> k = k' /\ K = K'.
Proof.
  intros H1 H2. pose proof (P_ppinterp.block_valid_range _ _ _ _ _ _ H1) as E1. pose proof (P_ppinterp.block_valid_range _ _ _ _ _ _ H2) as E2.
  rewrite E1 in E2. injection E2 as <- <-. auto.
Qed.

Lemma ox_extent : same_extent (exY, exT, exX).
Proof.
  intros k K ss ts ps HC. pose proof (cast_blk _ _ _ _ _ _ _ _ HC) as HB.
  destruct (block_range _ _ _ _ _ _ _ _ _ _ HB (cast_blk _ _ _ _ _ _ _ _ ex_cast)) as [-> ->].
  constructor.
  - reflexivity.
  - lia.
  - cbn. lia.
  - apply (blk_X _ _ _ _ _ _ HB).
  - apply (cast_T _ _ _ _ _ _ _ _ HC).
  - apply (blk_inc _ _ _ _ _ _ HB).
  - intros i Hi. assert (i = 0%nat) as -> by lia. left. reflexivity.
  - intros _. left. reflexivity.
Qed.

Lemma omega_witness :
  eos_on exD exeos exrho /\ eos_s_t_on exD exst (fun _ _ _ => 1%R) (fun _ t _ => t) /\ nan_safe exst /\ water_in exD (34.5, 3, 1000)%R
  /\ interpolator (linear_coeffs_1 NaN) linear_fun /\ column_interp linear_fun (fun p P S T => linear_interp_1_two p P S T 0)
  /\ exact_spsolve ge_spsolve /\ exact_lsqr ge_lsqr
  /\ TOL_P_SOLVER ox_opt = Fin 1 /\ (forall c, In c ox_casts -> any_cast c /\ cast_in exD c /\ enough_fuel 13 1 c) /\ Forall same_extent ox_casts
  /\ in_range [(0, 1)%nat] (length ox_casts) /\ distances (Sc (Fin 1)) 1 [1%R]
  /\ in_cast ox_casts 0 2 /\ starts_at [2%nat] ox_casts 0 2 (IScalar (Fin 2))
  /\ starts_at [2%nat] ox_casts 0 2 (IArray [2%nat] [Fin 2; Fin 3]) /\ below_mixed_layer ox_casts 0 2 (Some [Fin 1; Fin 9])
  /\ spells "poisson" (OMEGA_FORMULATION ox_opt) /\ (0 < ITER_MAX ox_opt)%Z.
Proof.
  split; [apply exeos_on|]. split; [apply exst_on|]. split; [exact exst_nan|]. split; [cbn; unfold upto; lra|].
  split; [apply linear_interpolator|]. split; [exact linear_column_interp|]. split; [exact ge_spsolve_exact|]. split; [exact ge_lsqr_exact|].
  split; [reflexivity|]. split.
  { intros c Hc. assert (c = (exY, exT, exX)) as -> by (simpl in Hc; intuition). split; [exact ex_any_cast|]. split; [exact ex_cast_in|exact ex_enough_fuel]. }
  split; [apply Forall_cons; [exact ox_extent|]; apply Forall_cons; [exact ox_extent|constructor]|].
  split; [intros a b [E|[]]; injection E as <- <-; cbn; lia|]. split; [split; [reflexivity|right; exists 1%R; auto]|].
  split.
  { exists exY, exT, exX, 1%nat, 4%nat, exys, exts, exxs. split; [reflexivity|]. split; [exact ex_cast|]. split; [lia|]. cbn. lra. }
  split; [reflexivity|]. split; [split; [reflexivity|split; reflexivity]|].
  split; [split; [reflexivity|]|split; [exact (lower_spells (OMEGA_FORMULATION ox_opt))|reflexivity]].
  intros m Hm. injection Hm as <-. cbn. apply Rltb_false. lra.
Qed.

(** ** runs in binary64 *)
Definition ol (l : list Z) : list f64 := map (fun z => lit z 0) l.
Definition oeos (s t p : f64) : res f64 := Ok (add (add (lit 1000 0) s) (mul (lit 1 (-2)) p)).
Definition oeos_s_t (s t p : f64) : res (f64 * f64) := Ok (lit 1 0, lit 0 0).
(** solution of two equations by Cramer's rule *)
Definition spsolve2 (n : nat) (A : nat -> nat -> f64) (b : list f64) : list f64 :=
  let g i := nth i b nan in
  let det := sub (mul (A 0 0) (A 1 1)) (mul (A 0 1) (A 1 0)) in
  [div (sub (mul (g 0) (A 1 1)) (mul (A 0 1) (g 1))) det; div (sub (mul (A 0 0) (g 1)) (mul (g 0) (A 1 0))) det]%nat.
Definition ocasts : list (list f64 * list f64 * list f64) :=
  [(ol [1; 2; 3], ol [9; 9; 9], ol [0; 100; 200]); (ol [2; 3; 4], ol [9; 9; 9], ol [0; 100; 200])]%Z.
Definition oopt (n m : Z) : @options f64 := mkOptions true n m 1 5 1 (lit 1 (-4)) (lit 1 (-7)) (lit 0 0) "Poisson".
Definition orun (o : options) (p_init : pinit) (p_ml : option (list f64)) :=
  omega_surf oeos oeos_s_t (linear_coeffs_1 nan) (fun p P S T => linear_interp_1_two p P S T 0) spsolve2 (fun _ _ _ b => b)
    100 10 (fun _ => repeat 0%nat 4) (repeat 0%nat 4) (repeat 0%nat 4) [2%nat] ocasts
    (Some [(0, 1)%nat]) (Some (Sc (lit 1 0))) (Some (Sc (lit 1 0))) 0 o p_init p_ml.
Definition ostart : @pinit f64 := IArray [2%nat] (ol [150; 150]%Z).

(** two iterations; what the second one did is not in the diagnostics *)
Definition odiag (r : res (list (f64 * f64 * f64) * option (@diagnostics f64) * list (@iteration f64))) :=
  match r with
  | Ok (x, Some d, its) => Some (x, d, its)
  | _ => None
  end.
Lemma orun_two : exists x d r1 r2, orun (oopt 1 10) ostart None = Ok (x, Some d, [r1; r2])
  /\ d_phi_MAV d = [lit 0 0; i_phi_mav r1] /\ i_phi_mav r1 = lit 5 (-1)
  /\ d_n_newly_wet d = [0; 0]%nat /\ d_n_wet d = [2; 2]%nat.
Proof.
  destruct (odiag (orun (oopt 1 10) ostart None)) as [[[x d] its]|] eqn:E; [|exfalso; vm_compute in E; discriminate].
  vm_compute in E. injection E as <- <- <-. do 4 eexists. vm_compute. auto 10.
Qed.

(** the pin is above the mixed layer: the second iteration fails *)
Lemma orun_mixed_layer : orun (oopt 1 10) ostart (Some (ol [160; 0]%Z)) = Err IndexError.
Proof. vm_compute. reflexivity. Qed.
(** no iterations, but diagnostics *)
Lemma orun_none : orun (oopt 1 0) ostart None = Err NameError.
Proof. vm_compute. reflexivity. Qed.

Lemma last_diagnostics_missing :
  exists x d its r, orun (oopt 1 10) ostart None = Ok (x, Some d, its)
    /\ nth_error its (length its - 1) = Some r /\ nth_error (d_phi_MAV d) (length its) = None.
Proof.
  destruct orun_two as (x & d & r1 & r2 & E & H & _). exists x, d, [r1; r2], r2. split; [exact E|]. split; [reflexivity|]. rewrite H. reflexivity.
Qed.

Lemma spelling_case : spells "poisson" "Poisson" /\ spells "gradient" "GRADIENT" /\ ~ spells "poisson" "Laplace" /\ ~ spells "gradient" "Laplace".
Proof.
  split; [exact (lower_spells "Poisson")|]. split; [exact (lower_spells "GRADIENT")|].
  split; intros H; [pose proof (spells_lower _ _ H poisson_small) as E|pose proof (spells_lower _ _ H gradient_small) as E]; discriminate E.
Qed.
