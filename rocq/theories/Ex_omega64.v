(** * Witnesses for omega_surf run in binary64 *)
From Coq Require Import String ZArith Bool Reals Lra Lia List SpecFloat.
From Flocq Require Import Core.
From Flocq Require BinarySingleNaN.
From Verif Require Import Num XR SF Res Arr Nd XRlemmas M_eostools M_lib M_ntp M_ppinterp M_traj M_vertsolve M_matsolve M_omega M_surfaces S_lib S_eos S_float S_fzero64 S_interp S_domain S_named S_traj S_vertsolve
  S_mixed_layer S_surfaces S_graph S_vert64 S_entry64 S_ntp S_ntp64 S_omega S_omega64 S_system64 S_run64 P_float P_ppinterp P_traj P_case P_linear64 Ex_vert64 Ex_entry64 Ex_ntp64 Ex_fly64 Ex_omega.
Import ListNotations.
Local Open Scope R_scope.

(** two columns: one has no data on its last level, one has none on its first *)
Definition colF : column64 := (fl [34; 35; 35] ++ [nan], fl [20; 10; 4] ++ [nan], fl [10; 500; 2000; 2000])%Z.
Definition colF' : column := (fins [34; 35; 35] ++ [NaN], fins [20; 10; 4] ++ [NaN], fins [10; 500; 2000; 2000])%Z.
Lemma colF_holds : holds_column colF colF'. Proof. split; [|split]; held_all. Qed.
Lemma colF_cast : cast (fst (fst colF')) (snd (fst colF')) (snd colF') 0 3 (lev [34; 35; 35]%Z) (lev [20; 10; 4]%Z) (lev [10; 500; 2000]%Z).
Proof.
  constructor; [constructor|reflexivity|]; simpl; try lia.
  - intros i Hi. destruct i as [|[|[|i]]]; try lia; reflexivity.
  - intros i Hi. destruct i as [|[|[|i]]]; try lia; reflexivity.
  - intros i _ Hi. destruct i as [|[|i]]; try lia; unfold lev; simpl; lra.
  - intros _. right. reflexivity.
  - intros i Hi. destruct i as [|[|[|i]]]; try lia; reflexivity.
Qed.
Lemma colF_in pm : 2000 <= pm -> cast_in (sea (/ 1000) pm) colF'.
Proof.
  intros Hpm. apply (cast_in_block _ _ _ _ _ _ _ _ _ colF_cast). intros i Hi.
  destruct i as [|[|[|i]]]; try lia; unfold sea, box, lev, upto; cbn [dS dT dP nth]; repeat split; lra.
Qed.
Lemma colE_in pm : 2000 <= pm -> cast_in (sea (/ 1000) pm) colE'.
Proof.
  intros Hpm. apply (cast_in_block _ _ _ _ _ _ _ _ _ colE_cast). intros i Hi.
  destruct i as [|[|[|[|i]]]]; try lia; unfold sea, box, lev, upto; cbn [dS dT dP nth]; repeat split; lra.
Qed.
Lemma colF_ok : column_ok64 (/ 1000) 10000 fuel_ex (fval (lit 1 0 : f64)) colF'.
Proof.
  pose proof p30 as P30. pose proof p900 as P900. pose proof fuel_ex_val as Fv. pose proof fuel_ex_13 as F13.
  destruct tol_one as (_ & -> & _). split; [|split; [|split; [|split]]].
  - right. exists 0%nat, 3%nat, (lev [34; 35; 35]%Z), (lev [20; 10; 4]%Z), (lev [10; 500; 2000]%Z). split; [exact colF_cast|lia].
  - apply colF_in. lra.
  - refine (one_cast _ _ _ _ _ _ _ _ (fun k K ps => forall i, (k <= i)%nat -> (S i < K)%nat -> powerRZ 2 (-30) <= ps (S i) - ps i) colF_cast _).
    intros ps H i Hk Hi. rewrite !H by lia. destruct i as [|[|i]]; try lia; unfold lev; cbn [nth]; lra.
  - refine (one_cast _ _ _ _ _ _ _ _ (fun k K ps => powerRZ 2 (-900) <= ps k) colF_cast _).
    intros ps H. rewrite !H by lia. unfold lev. cbn [nth]. lra.
  - split; [exact F13|].
    refine (one_cast _ _ _ _ _ _ _ _ (fun k K ps => 5 * (ps (K - 1)%nat - ps k) / 1 + 1 <= INR fuel_ex) colF_cast _).
    intros ps H. rewrite !H by lia. rewrite Fv. unfold lev. cbn [nth Nat.sub]. lra.
Qed.
Lemma colE_ok64 : column_ok64 (/ 1000) 10000 fuel_ex (fval (lit 1 0 : f64)) colE'.
Proof.
  pose proof p900 as P900. pose proof fuel_ex_val as Fv. pose proof fuel_ex_13 as F13. destruct colE_ok as (E1 & _ & E3 & E4).
  destruct tol_one as (_ & -> & _). split; [exact E1|split; [exact E3|split; [exact E4|split]]].
  - refine (one_cast _ _ _ _ _ _ _ _ (fun k K ps => powerRZ 2 (-900) <= ps k) colE_cast _).
    intros ps H. rewrite !H by lia. unfold lev. cbn [nth]. lra.
  - split; [exact F13|].
    refine (one_cast _ _ _ _ _ _ _ _ (fun k K ps => 5 * (ps (K - 1)%nat - ps k) / 1 + 1 <= INR fuel_ex) colE_cast _).
    intros ps H. rewrite !H by lia. rewrite Fv. unfold lev. cbn [nth Nat.sub]. lra.
Qed.
Lemma colF_extent : same_extent colF'.
Proof.
  unfold same_extent, colF'. intros k K ss ts ps HC. assert (HB := cast_blk _ _ _ _ _ _ _ _ HC).
  pose proof (block_valid_range _ _ _ _ _ _ HB) as E. pose proof (block_valid_range _ _ _ _ _ _ (cast_blk _ _ _ _ _ _ _ _ colF_cast)) as E0. unfold colF' in E0. cbn [fst snd] in E0. rewrite E0 in E.
  assert (k = 0 /\ K = 3)%nat as [-> ->] by (split; congruence). constructor.
  - reflexivity.
  - lia.
  - simpl. lia.
  - exact (blk_X _ _ _ _ _ _ HB).
  - exact (cast_T _ _ _ _ _ _ _ _ HC).
  - exact (blk_inc _ _ _ _ _ _ HB).
  - intros i Hi. lia.
  - intros _. right. reflexivity.
Qed.

(** the data, the vertical dimension being the last *)
Definition wS : @data f64 := mk_data (mk_nd [2; 4]%nat (fst (fst colF) ++ fst (fst colE))) None [].
Definition wT : @data f64 := mk_data (mk_nd [2; 4]%nat (snd (fst colF) ++ snd (fst colE))) None [].
Definition wP : @data f64 := mk_data (mk_nd [2; 4]%nat (snd colF ++ snd colE)) None [].
Definition wcol (h : list nat) : column64 := match h with [0%nat] => colF | _ => colE end.
Definition wcol' (h : list nat) : column := match h with [0%nat] => colF' | _ => colE' end.
Lemma w_columns : water_columns wS wT wP (VInt (-1)) [2%nat] 4 [] wcol.
Proof.
  assert (HL : forall X : @data f64, dims X = None -> labelled (VInt (-1)) 1 X) by (intros X E ds Ed; rewrite E in Ed; discriminate).
  assert (HC : forall (f : column64 -> list f64) h1 h2, length (f colF) = 4%nat -> length (f colE) = 4%nat -> valid [2%nat] h1 -> valid [] h2 ->
    cast_at (at_ (mk_nd [2; 4]%nat (f colF ++ f colE))) 4 h1 h2 (f (wcol (h1 ++ h2)))).
  { intros f h1 h2 LA LB V1 V2. inversion V2; subst. rewrite app_nil_r.
    destruct (f colF) as [|a0 [|a1 [|a2 [|a3 [|]]]]] eqn:EA; try discriminate. destruct (f colE) as [|b0 [|b1 [|b2 [|b3 [|]]]]] eqn:EB; try discriminate.
    destruct (valid1 _ V1) as [-> | ->]; cbn [wcol]; [rewrite EA|rewrite EB]; (split; [reflexivity|]);
      intros k Hk; destruct k as [|[|[|[|k]]]]; try lia; reflexivity. }
  constructor.
  - split; reflexivity.
  - split; reflexivity.
  - lia.
  - split; [split; [apply HL; reflexivity|]|apply HL; reflexivity]. intros _. exists (-1)%Z. split; [reflexivity|]. split; [cbn; lia|right; reflexivity].
  - split; [reflexivity|]. left. split; [reflexivity|]. intros h1 h2 V1 V2. exact (HC snd h1 h2 eq_refl eq_refl V1 V2).
  - intros h1 h2 V1 V2. split.
    + exact (HC (fun c => fst (fst c)) h1 h2 eq_refl eq_refl V1 V2).
    + exact (HC (fun c => snd (fst c)) h1 h2 eq_refl eq_refl V1 V2).
Qed.

(** a solver of two equations *)
Definition keep (x : f64) : f64 :=
  match x with
  | S754_finite _ m e => if ((Zpos m <? 2 ^ 53) && (-1074 <=? e) && (e <=? 971) && ((e =? -1074) || (2 ^ 52 <=? Zpos m)))%Z then x else nan
  | _ => x
  end.
Lemma keep_float x : float64 (keep x).
Proof.
  destruct x as [s|s| |s m e]; [left; exact I|right; reflexivity|right; reflexivity|]. unfold keep. destruct (_ && _) eqn:E; [left|right; reflexivity].
  apply andb_prop in E. destruct E as [E E4]. apply andb_prop in E. destruct E as [E E3]. apply andb_prop in E. destruct E as [E1 E2].
  apply Z.ltb_lt in E1. apply Z.leb_le in E2. apply Z.leb_le in E3. split; [exact E1|]. split; [exact (conj E2 E3)|].
  apply orb_prop in E4. destruct E4 as [E4|E4]; [left; apply Z.eqb_eq, E4|right; apply Z.leb_le, E4].
Qed.
Definition two_spsolve (N : nat) (A : nat -> nat -> f64) (r : list f64) : list f64 :=
  if Nat.eqb N 2 then map keep (spsolve2 N A r) else repeat (zero : f64) N.
Definition no_lsqr (M N : nat) (A : nat -> nat -> f64) (r : list f64) : list f64 := repeat (zero : f64) N.
Lemma w_solvers : solvers64 two_spsolve no_lsqr.
Proof.
  assert (H0 : float64 (zero : f64)) by (left; exact I).
  assert (HR : forall N, length (repeat (zero : f64) N) = N /\ Forall float64 (repeat (zero : f64) N)).
  { intros N. split; [apply repeat_length|]. apply Forall_forall. intros x Hx. apply repeat_spec in Hx. subst x. exact H0. }
  split; [|intros M N A r; apply HR]. intros N A r. unfold two_spsolve. destruct (Nat.eqb N 2) eqn:E; [|apply HR].
  apply Nat.eqb_eq in E. subst N. split; [reflexivity|]. apply Forall_forall. intros x Hx. apply in_map_iff in Hx. destruct Hx as (y & <- & _). apply keep_float.
Qed.

Definition wopt : @options f64 := mkOptions true 1 3 1 5 1 (lit 1 0) (lit 1 (-7)) (lit 0 0) "Poisson".
Lemma w_options : finite64 (TOL_P_SOLVER wopt) /\ tolerance_ok (fval (TOL_P_SOLVER wopt)) /\ (o_diags wopt = true -> (0 < ITER_MAX wopt)%Z)
  /\ (spells "poisson" (OMEGA_FORMULATION wopt) \/ spells "gradient" (OMEGA_FORMULATION wopt)).
Proof. destruct tol_one as (F & _ & T). split; [exact F|]. split; [exact T|]. split; [intros _; cbn; lia|]. left. exact (lower_spells "Poisson"). Qed.

Lemma w_edges : edges64 2 [(0, 1)%nat] (Sc (n 1000)) (Sc (n 500)) [1000] [500].
Proof.
  destruct h1000 as [F1 V1], h500 as [F5 V5].
  split; [intros a b [E|[]]; assert (a = 0 /\ b = 1)%nat as [-> ->] by (split; congruence); lia|]. split; [discriminate|]. split.
  { change 31%Z with (Z.of_nat 31). rewrite <- pow_powerRZ. cbn [length INR]. apply pow_R1_Rle. lra. }
  split; [split; [reflexivity|right; exists (n 1000); split; [reflexivity|split; [exact F1|rewrite V1; reflexivity]]]|].
  split; [split; [reflexivity|right; exists (n 500); split; [reflexivity|split; [exact F5|rewrite V5; reflexivity]]]|].
  split; [apply Forall_cons; [apply moderate_in; lra|apply Forall_nil]|apply Forall_cons; [right; apply moderate_in; lra|apply Forall_nil]].
Qed.

Lemma w_water h : valid [2%nat] h -> holds_column (wcol h) (wcol' h) /\ column_ok64 (/ 1000) 10000 fuel_ex (fval (TOL_P_SOLVER wopt)) (wcol' h)
  /\ same_extent (wcol' h) /\ cast_in (sea (/ 1000) (10000 - 1)) (wcol' h).
Proof.
  intros V. destruct (valid1 h V) as [-> | ->]; cbn [wcol wcol' wopt TOL_P_SOLVER].
  - split; [exact colF_holds|]. split; [exact colF_ok|]. split; [exact colF_extent|apply colF_in; lra].
  - split; [exact colE_holds|]. split; [exact colE_ok64|]. split; [apply colE_ok|apply colE_in; lra].
Qed.
(** the pin: the first column at the pressure 600 *)
Lemma w_pin : valid [2%nat] [0%nat] /\ pin_omega64 (APin (PinInt 0)) [0%nat] /\ finite64 (n 600) /\ in_cast (map wcol' (all_idx [2%nat])) (ravel [2%nat] [0%nat]) (fval (n 600))
  /\ starts_at64 [2%nat] 2 0 (n 600) (flat_init (InitScalar (n 600))) /\ below_mixed_layer64 2 0 (n 600) (Some [n 10; n 600]).
Proof.
  destruct h600 as [F V]. split; [apply Forall2_cons; [lia|apply Forall2_nil]|]. split; [right; right; exists 0%Z; split; reflexivity|]. split; [exact F|]. split.
  { exists (fst (fst colF')), (snd (fst colF')), (snd colF'), 0%nat, 3%nat, (lev [34; 35; 35]%Z), (lev [20; 10; 4]%Z), (lev [10; 500; 2000]%Z).
    split; [reflexivity|]. split; [exact colF_cast|]. split; [lia|]. rewrite V. unfold lev. cbn [nth Nat.sub]. lra. }
  split; [reflexivity|]. split; [reflexivity|]. intros m E. assert (m = n 10) as -> by (change (Some (n 10) = Some m) in E; congruence). vm_compute. reflexivity.
Qed.

(** a run from one pressure: the other cast is made wet, then the surface moves *)
Definition w_run := omega_surf_pub two_spsolve no_lsqr (nan : f64) fuel_ex 3 (fun _ => [0; 0]%nat) [0; 0; 0]%nat [0; 0]%nat wS wT wP
  (GDict (Some [(0, 1)%nat]) (Some (Sc (n 1000))) (Some (Sc (n 500)))) (APin (PinInt 0)) (InitScalar (n 600)) noindex
  (mkOmega (VInt (-1)) MNone (AStr "jmd95") None None "pchip" wopt).
Definition w_run_value := Eval vm_compute in match w_run with Ok (_, _, p, _, its) => Some (elems (arr p), length its) | _ => None end.
Lemma w_runs : exists s t p dd its q, w_run = Ok (s, t, p, dd, its) /\ w_run_value = Some (elems (arr p), length its) /\ elems (arr p) = [n 600; q] /\ isfinite q = true
  /\ length its = 3%nat.
Proof.
  assert (H0 : match w_run with Ok (_, _, p, _, its) => Some (elems (arr p), length its) | _ => None end = w_run_value) by (vm_compute; reflexivity).
  destruct w_run as [[[[[s t] p] dd] its]|] eqn:E; [|unfold w_run_value in H0; discriminate H0]. pose proof (eq_sym H0) as H.
  assert (H1 : option_map fst w_run_value = Some (elems (arr p))) by (rewrite H; reflexivity).
  assert (H2 : option_map snd w_run_value = Some (length its)) by (rewrite H; reflexivity).
  exists s, t, p, dd, its. eexists. split; [reflexivity|]. split; [exact H|].
  assert (H3 : length its = 3%nat) by (assert (H4 : option_map snd w_run_value = Some 3%nat) by reflexivity; congruence).
  refine (conj _ (conj _ H3)).
  - assert (H4 : elems (arr p) = match w_run_value with Some x => fst x | None => [] end) by (rewrite H; reflexivity). rewrite H4. unfold w_run_value. cbn [fst].
    match goal with |- [?a; ?b] = _ => assert (Ea : a = n 600) by (vm_compute; reflexivity) end. rewrite Ea. reflexivity.
  - reflexivity.
Qed.
