(** * Witnesses for the mixed layer in binary64 *)
From Coq Require Import String ZArith Bool Reals Lra Lia List SpecFloat.
From Verif Require Import Num XR SF Res Arr Nd XRlemmas M_ppinterp M_eostools M_lib M_mixed_layer S_eos S_float S_interp S_domain S_named S_traj S_vertsolve
  S_lib S_mixed_layer S_surfaces S_vert64 S_entry64 S_omega64 S_ml64 P_float P_fl Ex_vert64 Ex_entry64.
Import ListNotations.
Local Open Scope R_scope.

(** potential densities at the surface *)
Lemma surface_jm s t : jm_rho s t (0 * 1) = jm_rho0 s t.
Proof. unfold jm_rho. unfold Rdiv. rewrite !Rmult_0_l, Rminus_0_r, Rinv_1. ring. Qed.
Ltac density_at s lo hi :=
  let L := fresh in let U := fresh in
  assert (L : lo <= sqrt s) by (rewrite <- (sqrt_square lo) by lra; apply sqrt_le_1; lra);
  assert (U : sqrt s <= hi) by (rewrite <- (sqrt_square hi) by lra; apply sqrt_le_1; lra);
  unfold jm_rho0, jm_rho0_terms, S_eos.poly; cbn [fold_right];
  let E := fresh in assert (E := sqrt_sqrt s ltac:(lra)); set (q := sqrt s) in *; clearbody q;
  let c2 := fresh in let c3 := fresh in let c4 := fresh in
  assert (c2 : pow q 2 = s) by (simpl; rewrite Rmult_1_r; exact E);
  assert (c3 : pow q 3 = s * q) by (change (pow q 3) with (q * pow q 2); rewrite c2; ring);
  assert (c4 : pow q 4 = s * s) by (change (pow q 4) with (q * (q * pow q 2)); rewrite c2, <- E; ring);
  rewrite ?c2, ?c3, ?c4; unfold dec; simpl powerRZ; simpl pow; lra.
Lemma dens_34_20 : 1023 < jm_rho0 34 20 < 1025. Proof. split; density_at 34 (58309 / 10000) (5831 / 1000). Qed.
Lemma dens_34_25 : 1021 < jm_rho0 34 25 < 1023. Proof. split; density_at 34 (58309 / 10000) (5831 / 1000). Qed.
Lemma dens_35_10 : 1026.9 < jm_rho0 35 10 < 1027. Proof. split; density_at 35 (5916 / 1000) (59161 / 10000). Qed.
Lemma dens_35_5 : 1027.6 < jm_rho0 35 5 < 1027.72. Proof. split; density_at 35 (5916 / 1000) (59161 / 10000). Qed.
Lemma dens_35_4 : 1027.75 < jm_rho0 35 4 < 1028. Proof. split; density_at 35 (5916 / 1000) (59161 / 10000). Qed.

Definition pot (s t : R) : R := jm_rho s t (0 * 1).
Definition dA : nat -> R := excess (fun i => pot (lev [34; 35; 35]%Z i) (lev [20; 10; 4]%Z i)) 1.
Definition dB : nat -> R := excess (fun i => pot (lev [0; 34; 35; 35]%Z i) (lev [0; 25; 10; 5]%Z i)) 1.

(** an unstable column: the deepest water is not the densest *)
Definition colU : column64 := (fl [34; 35; 35], fl [20; 4; 10], fl [10; 500; 2000])%Z.
Definition colU' : column := (fins [34; 35; 35], fins [20; 4; 10], fins [10; 500; 2000])%Z.
Definition dU : nat -> R := excess (fun i => pot (lev [34; 35; 35]%Z i) (lev [20; 4; 10]%Z i)) 0.
Definition uS : @data f64 := mk_data (mk_nd [3]%nat (fst (fst colU))) None [].
Definition uT : @data f64 := mk_data (mk_nd [3]%nat (snd (fst colU))) None [].
Definition uP : @data f64 := mk_data (mk_nd [3]%nat (snd colU)) None [].

Lemma colU_holds : holds_column colU colU'. Proof. split; [|split]; held_all. Qed.
Lemma colU_cast : cast (fst (fst colU')) (snd (fst colU')) (snd colU') 0 3
  (lev [34; 35; 35]%Z) (lev [20; 4; 10]%Z) (lev [10; 500; 2000]%Z).
Proof.
  constructor; [constructor|reflexivity|]; simpl; try lia.
  - intros i Hi. destruct i as [|[|[|i]]]; try lia; reflexivity.
  - intros i Hi. destruct i as [|[|[|i]]]; try lia; reflexivity.
  - intros i _ Hi. destruct i as [|[|i]]; try lia; unfold lev; simpl; lra.
  - intros i Hi. destruct i as [|[|[|i]]]; try lia; reflexivity.
Qed.

Ltac level_in := first [left; reflexivity|right; do 2 eexists; split; [reflexivity|]; split; [reflexivity|]; cbn [sea box dS dT]; unfold upto; lra].
Lemma levels4 s0 s1 s2 s3 t0 t1 t2 t3 D : levels_in D [s0; s1; s2; s3] [t0; t1; t2; t3] <->
  levels_in D [s0] [t0] /\ levels_in D [s1] [t1] /\ levels_in D [s2] [t2] /\ levels_in D [s3] [t3].
Proof.
  split.
  - intros H. repeat split; intros i s t Hs Ht; destruct i as [|[|i]]; try discriminate;
      [apply (H 0%nat)|apply (H 1%nat)|apply (H 2%nat)|apply (H 3%nat)]; assumption.
  - intros (H0 & H1 & H2 & H3) i s t Hs Ht. destruct i as [|[|[|[|i]]]]; cbn [nth_error] in Hs, Ht;
      [apply (H0 0%nat)|apply (H1 0%nat)|apply (H2 0%nat)|apply (H3 0%nat)|destruct i; discriminate]; assumption.
Qed.
Ltac one_level := let i := fresh in intros i ? ? Hs Ht; destruct i as [|[|i]]; cbn in Hs, Ht; try discriminate; injection Hs as <-; injection Ht as <-; level_in.

Lemma colA_layers : layers (sea (/ 1000) 10000) pot 1 colA' 0 3 dA (lev [10; 500; 2000]%Z).
Proof.
  constructor; cbn [colA' fst snd].
  - apply levels4. split; [one_level|]. split; [one_level|]. split; one_level.
  - lia.
  - do 2 eexists. split; [exact colA_cast|reflexivity].
  - intros i Hi. cbn [sea box dP]. unfold upto. destruct i as [|[|[|i]]]; try lia; unfold lev; simpl; lra.
Qed.
Lemma colB_layers : layers (sea (/ 1000) 10000) pot 1 colB' 1 4 dB (lev [0; 10; 600; 2000]%Z).
Proof.
  constructor; cbn [colB' fst snd].
  - apply levels4. split; [one_level|]. split; [one_level|]. split; one_level.
  - lia.
  - do 2 eexists. split; [exact colB_cast|reflexivity].
  - intros i Hi. cbn [sea box dP]. unfold upto. destruct i as [|[|[|[|i]]]]; try lia; unfold lev; simpl; lra.
Qed.
Lemma colU_layers : layers (sea (/ 1000) 10000) pot 0 colU' 0 3 dU (lev [10; 500; 2000]%Z).
Proof.
  constructor; cbn [colU' fst snd].
  - intros i s t Hs Ht. destruct i as [|[|[|i]]]; cbn in Hs, Ht; try (destruct i; discriminate); injection Hs as <-; injection Ht as <-; level_in.
  - lia.
  - do 2 eexists. split; [exact colU_cast|reflexivity].
  - intros i Hi. cbn [sea box dP]. unfold upto. destruct i as [|[|[|i]]]; try lia; unfold lev; simpl; lra.
Qed.

Ltac dens := pose proof dens_34_20; pose proof dens_34_25; pose proof dens_35_10; pose proof dens_35_5; pose proof dens_35_4.
Lemma A_mixable : mixable (sea (/ 1000) 10000) pot 1 (dec 6 (-12)) colA'.
Proof.
  right. do 4 eexists. split; [exact colA_layers|]. intros i _ Hi. assert (Ed : dec 6 (-12) = 6 / 1000000000000) by (unfold dec; simpl; lra). rewrite Ed.
  dens. destruct i as [|[|i]]; try lia; unfold dA, excess, pot, lev; cbn [nth]; rewrite !surface_jm; lra.
Qed.
Lemma B_mixable : mixable (sea (/ 1000) 10000) pot 1 (dec 6 (-12)) colB'.
Proof.
  right. do 4 eexists. split; [exact colB_layers|]. intros i Hk Hi. assert (Ed : dec 6 (-12) = 6 / 1000000000000) by (unfold dec; simpl; lra). rewrite Ed.
  dens. destruct i as [|[|[|i]]]; try lia; unfold dB, excess, pot, lev; cbn [nth]; rewrite !surface_jm; lra.
Qed.

Definition half : f64 := lit 5 (-1).
Lemma half_val : finite64 half /\ fval half = / 2. Proof. unfold half. const64 4503599627370496%positive (-53)%Z. Qed.
Lemma U_decided : decided (sea (/ 1000) 10000) pot 0 (dec 6 (-12)) colU' half.
Proof.
  right. do 4 eexists. split; [exact colU_layers|]. destruct half_val as [_ ->]. assert (Ed : dec 6 (-12) = 6 / 1000000000000) by (unfold dec; simpl; lra). rewrite Ed.
  dens. right. right. right. unfold dU, excess, pot, lev; cbn [nth Nat.sub]; rewrite !surface_jm; lra.
Qed.
Lemma U_unstable : dU 2 < dU 1.
Proof. dens. unfold dU, excess, pot, lev; cbn [nth]; rewrite !surface_jm; lra. Qed.

Lemma u_columns : water_columns uS uT uP (VInt 0) [] 3 [] (fun _ => colU).
Proof.
  assert (HL : forall X : @data f64, dims X = None -> labelled (VInt 0) 0 X) by (intros X E ds Ed; rewrite E in Ed; discriminate).
  constructor.
  - split; reflexivity.
  - split; reflexivity.
  - lia.
  - split; [split; [apply HL; reflexivity|]|apply HL; reflexivity]. intros _. exists 0%Z. split; [reflexivity|]. split; [cbn; lia|left; reflexivity].
  - split; [reflexivity|]. right. split; reflexivity.
  - intros h1 h2 V1 V2. inversion V1; subst. inversion V2; subst. split; (split; [reflexivity|]); intros k Hk; destruct k as [|[|[|k]]]; try lia; reflexivity.
Qed.

(** the hypotheses can be met *)
Lemma ml64_case :
  density "jmd95" jm_rho /\ excess64 "jmd95" (/ 1000) (dec 6 (-12)) /\ coordinate64 None None 1 10000
  /\ water_columns eS eT eP (VInt (-1)) [2%nat] 4 [] ecol /\ finite64 (lit 0 0 : f64) /\ fval (lit 0 0 : f64) = 0 /\ float64 half /\ py_index 4 1 1
  /\ (forall h, valid ([2%nat] ++ []) h -> holds_column (ecol h) (ecol' h) /\ mixable (sea (/ 1000) 10000) pot 1 (dec 6 (-12)) (ecol' h))
  /\ water_columns uS uT uP (VInt 0) [] 3 [] (fun _ => colU) /\ py_index 3 0 0
  /\ (forall h : list nat, holds_column colU colU' /\ decided (sea (/ 1000) 10000) pot 0 (dec 6 (-12)) colU' half) /\ dU 2 < dU 1.
Proof.
  split; [constructor|]. split; [constructor|]. split; [apply e_coordinate|]. split; [exact e_columns|]. split; [apply h0|]. split; [apply h0|].
  split; [left; apply half_val|]. split; [split; [lia|left; reflexivity]|]. split.
  { intros h V. destruct (valid1 h V) as [-> | ->]; cbn [ecol ecol']; [split; [exact colA_holds|exact A_mixable]|split; [exact colB_holds|exact B_mixable]]. }
  split; [exact u_columns|]. split; [split; [lia|left; reflexivity]|]. split; [intros _; split; [exact colU_holds|exact U_decided]|exact U_unstable].
Qed.

(** runs *)
Definition ml_run interp := mixed_layer eS eT eP (AStr "jmd95") None None half (lit 0 0 : f64) 1 interp (VInt (-1)).
Definition ml_value := Eval vm_compute in (ml_run "linear", ml_run "pchip").
Example ml_runs : (ml_run "linear", ml_run "pchip") = ml_value.
Proof. vm_compute. reflexivity. Qed.
