(** * The Veronis density in binary64: one layer *)
From Coq Require Import ZArith Bool Reals Lra Lia Psatz List SpecFloat.
From Coquelicot Require Import Coquelicot.
From Flocq Require Import Core BinarySingleNaN.
From Verif Require Import Num SF Res Arr ArrLemmas M_numpy M_ppinterp M_label S_eos S_float P_float P_fl P_holds P_linear64 P_quad P_label P_quad64 P_linspace64.
Import ListNotations.
Local Open Scope R_scope.

Definition tau : R := powerRZ 2 (-200).
Lemma tau_pos : 0 < tau. Proof. apply pow2_pos. Qed.
Lemma tau_small : tau <= / 10 ^ 30.
Proof.
  apply Rle_trans with (powerRZ 2 (-100)); [apply pow2_le; lia|]. simpl. lra.
Qed.
(** much smaller than rounding errors *)
Lemma eta_tau : eta64 <= / 10 ^ 30 * (u64 * tau).
Proof.
  replace u64 with (powerRZ 2 (-53)) by (rewrite u_is; simpl; lra). unfold tau, eta64. rewrite pow2_mul. replace (-1075)%Z with (-822 + (-53 + -200))%Z by lia.
  rewrite <- (pow2_mul (-822)). apply Rmult_le_compat_r; [left; apply pow2_pos|]. apply Rle_trans with (powerRZ 2 (-100)); [apply pow2_le; lia|]. simpl. lra.
Qed.

(** ** slopes *)
Section Slope.
  Variables (Xi Xj Yi Yj : f64).
  Hypotheses (FXi : finite64 Xi) (FXj : finite64 Xj) (FYi : finite64 Yi) (FYj : finite64 Yj).
  Hypothesis Hh : / 1000 <= fval Xj - fval Xi <= 10000.
  Hypotheses (HYi : Rabs (fval Yi) <= 100) (HYj : Rabs (fval Yj) <= 100).
  Notation h := (fval Xj - fval Xi).
  Notation dY := (fval Yj - fval Yi).

  Lemma slope64 : let c := div (sub Yj Yi) (sub Xj Xi) : f64 in
    finite64 c /\ Rabs (fval c - dY / h) <= 5 * u64 * ((Rabs dY + tau) / h).
  Proof.
    cbv zeta. set (h' := h) in *. set (D := dY). pose proof u_is as U. assert (U0 := u64_pos). assert (E0 := eta64_pos). assert (Es := eta_tiny). assert (Et := eta_tau). assert (T0 := tau_pos).
    assert (e60 : / 10 ^ 60 <= / 10 ^ 30) by (apply Rinv_le_contravar; simpl; lra).
    assert (A3 : Rabs D <= 200) by (unfold D; apply Rabs_le_inv in HYi; apply Rabs_le_inv in HYj; apply Rabs_le; lra).
    destruct (sf_sub_near Xj Xi FXj FXi) as [Fh Eh]; [apply big_ok; fold h'; rewrite Rabs_pos_eq by lra; simpl; lra|]. fold h' in Eh. rewrite (Rabs_pos_eq h') in Eh by lra.
    change (sf_sub Xj Xi) with (sub Xj Xi) in *. set (fh := sub Xj Xi : f64) in *. clearbody fh.
    destruct (sf_sub_near Yj Yi FYj FYi) as [Fy Ey]; [apply big_ok; fold D; simpl; lra|]. fold D in Ey.
    change (sf_sub Yj Yi) with (sub Yj Yi) in *. set (fy := sub Yj Yi : f64) in *. clearbody fy. clearbody h' D.
    assert (eh : eta64 <= / 1000 * (u64 * h')).
    { apply Rle_trans with (/ 1000 * (u64 * / 1000)); [rewrite U in *; simpl in Es; lra|]. apply Rmult_le_compat_l; [lra|]. apply Rmult_le_compat_l; lra. }
    assert (Eh2 : Rabs (fval fh - h') <= 1001 / 1000 * u64 * h') by lra.
    assert (uh : 0 <= u64 * h' <= / 1000000 * h') by (split; [apply Rmult_le_pos; lra|apply Rmult_le_compat_r; [lra|rewrite U; lra]]).
    assert (Hfh : 999 / 1000 * h' <= fval fh <= 1001 / 1000 * h') by (apply abs_le_of in Eh2; lra).
    assert (D0 := Rabs_pos D). set (A := Rabs D) in *.
    assert (uA : 0 <= u64 * A) by (apply Rmult_le_pos; lra). assert (ut : 0 < u64 * tau) by (apply Rmult_lt_0_compat; lra).
    assert (i0 : 0 < / h') by (apply Rinv_0_lt_compat; lra).
    assert (ifh : / fval fh <= 1002 / 1000 * / h').
    { replace (1002 / 1000 * / h') with (/ (h' / (1002 / 1000))) by (field; lra). apply Rinv_le_contravar; lra. }
    assert (e30 : / 10 ^ 30 * (u64 * tau) <= / 10 ^ 6 * (u64 * tau)) by (apply Rmult_le_compat_r; [lra|]; apply Rinv_le_contravar; simpl; lra).
    (* the exact quotient of the computed differences *)
    assert (Q : Rabs (fval fy / fval fh - D / h') <= (21 / 10 * (u64 * A) + / 1000 * (u64 * tau)) * / h').
    { replace (fval fy / fval fh - D / h') with (((fval fy - D) - D * (fval fh - h') * / h') * / fval fh) by (field; lra).
      rewrite Rabs_mult, (Rabs_pos_eq (/ fval fh)) by (left; apply Rinv_0_lt_compat; lra).
      assert (N : Rabs (fval fy - D - D * (fval fh - h') * / h') <= 2002 / 1000 * (u64 * A) + eta64).
      { unfold Rminus at 1. eapply Rle_trans; [apply Rabs_triang|]. rewrite Rabs_Ropp, !Rabs_mult, (Rabs_pos_eq (/ h')) by lra. fold A.
        assert (A * Rabs (fval fh - h') * / h' <= A * (1001 / 1000 * u64 * h') * / h') by (apply Rmult_le_compat_r; [lra|]; apply Rmult_le_compat_l; lra).
        replace (A * (1001 / 1000 * u64 * h') * / h') with (1001 / 1000 * (u64 * A)) in H by (field; lra). fold A in Ey. lra. }
      apply Rle_trans with ((2002 / 1000 * (u64 * A) + eta64) * (1002 / 1000 * / h')).
      - apply Rmult_le_compat; try lra; [apply Rabs_pos|left; apply Rinv_0_lt_compat; lra].
      - rewrite <- Rmult_assoc. apply Rmult_le_compat_r; [lra|]. simpl in e30. lra. }
    assert (Ah : 0 <= A * / h') by (apply Rmult_le_pos; lra).
    assert (M : Rabs (fval fy / fval fh) <= 11 / 10 * (A + tau) * / h').
    { replace (fval fy / fval fh) with ((fval fy / fval fh - D / h') + D / h') by ring. eapply Rle_trans; [apply Rabs_triang|].
      unfold Rdiv at 3. rewrite (Rabs_mult D), (Rabs_pos_eq (/ h')) by lra. fold A.
      apply Rle_trans with ((21 / 10 * (u64 * A) + / 1000 * (u64 * tau)) * / h' + A * / h'); [lra|].
      rewrite <- Rmult_plus_distr_r. apply Rmult_le_compat_r; [lra|].
      assert (u64 * A <= / 1000 * A) by (apply Rmult_le_compat_r; [lra|rewrite U; lra]). assert (u64 * tau <= / 1000 * tau) by (apply Rmult_le_compat_r; [lra|rewrite U; lra]). lra. }
    assert (T1 := tau_small).
    assert (ih : / h' <= 1000) by (replace 1000 with (/ / 1000) by lra; apply Rinv_le_contravar; lra).
    assert (Mb : Rabs (fval fy / fval fh) <= 10 ^ 10).
    { eapply Rle_trans; [exact M|]. apply Rle_trans with (11 / 10 * (200 + 1) * 1000); [|simpl; lra]. apply Rmult_le_compat; try lra. }
    destruct (sf_div_near fy fh Fy Fh) as [Fc Ec]; [lra|apply big_ok; simpl in *; lra|].
    change (sf_div fy fh) with (div fy fh) in *. split; [exact Fc|].
    replace (fval (div fy fh) - D / h') with ((fval (div fy fh) - fval fy / fval fh) + (fval fy / fval fh - D / h')) by ring.
    eapply Rle_trans; [apply Rabs_triang|].
    assert (u64 * Rabs (fval fy / fval fh) <= u64 * (11 / 10 * (A + tau) * / h')) by (apply Rmult_le_compat_l; lra).
    assert (eta64 <= / 10 * (u64 * tau) * / h').
    { apply Rmult_le_reg_r with h'; [lra|]. rewrite Rmult_assoc, Rinv_l, Rmult_1_r by lra.
      apply Rle_trans with (/ 10 ^ 30 * (u64 * tau) * 10000); [apply Rmult_le_compat; try lra|]. simpl. lra. }
    unfold Rdiv. replace (5 * u64 * ((A + tau) * / h')) with ((5 * (u64 * A) + 5 * (u64 * tau)) * / h') by ring.
    apply Rle_trans with ((11 / 10 * (u64 * A + u64 * tau) + / 10 * (u64 * tau) + (21 / 10 * (u64 * A) + / 1000 * (u64 * tau))) * / h').
    - lra.
    - apply Rmult_le_compat_r; [lra|]. lra.
  Qed.
End Slope.

Lemma pval_line1 (dx c s : f64) : finite64 dx -> Rabs (fval dx) <= 10 ^ 10 -> finite64 c -> Rabs (fval c) <= 10 ^ 10 ->
  finite64 (pval dx [c; s] 1) /\ fval (pval dx [c; s] 1) = fval c.
Proof.
  intros Fd Bd Fc Bc. change (pval dx [c; s] 1) with (add (mul (lit 0 0) dx) (mul c (mul (lit 1 0) (of_nat 1))) : f64).
  assert (E1 : (mul (lit 1 0) (of_nat 1) : f64) = lit 1 0) by (vm_compute; reflexivity). rewrite E1.
  destruct fl_zero as [Fz Vz]. destruct fl_one as [Fo Vo]. set (z := lit 0 0 : f64) in *. set (o := lit 1 0 : f64) in *. clearbody z o. clear E1.
  assert (big : forall v, Rabs v <= 10 ^ 10 -> Rabs (rnd v) < bpow radix2 1024).
  { intros v Hv. apply rnd_small, big_ok. simpl in *. lra. }
  destruct (mul_val z dx Fz Fd) as [F1 V1]; [rewrite Vz, Rmult_0_l; apply big; rewrite Rabs_R0; simpl; lra|].
  destruct (mul_val c o Fc Fo) as [F2 V2]; [rewrite Vo, Rmult_1_r; apply big; exact Bc|].
  rewrite Vz, Rmult_0_l, P_sum64.rnd_0 in V1. rewrite Vo, Rmult_1_r, (rnd_fval c Fc) in V2.
  change (sf_mul z dx) with (mul z dx) in *. change (sf_mul c o) with (mul c o) in *.
  destruct (add_val (mul z dx) (mul c o) F1 F2) as [F3 V3]; [rewrite V1, V2, Rplus_0_l; apply big; exact Bc|].
  rewrite V1, V2, Rplus_0_l, (rnd_fval c Fc) in V3. split; [exact F3|exact V3].
Qed.

(** nearby numbers are equal, unless tiny *)
Lemma apart64 (a b : f64) : finite64 a -> finite64 b -> / 1000 <= fval b -> fval a <= fval b -> fval b - fval a <= powerRZ 2 (-1000) -> fval a = fval b.
Proof.
  intros Fa Fb Hb Hab Hd. destruct (Rle_lt_or_eq_dec _ _ Hab) as [L|E]; [|exact E]. exfalso.
  assert (G : forall z : f64, finite64 z -> generic_format radix2 (FLT_exp (-1074) 53) (fval z)).
  { intros z Fz. destruct (finite64_B _ Fz) as (bz & <- & Hz & Ez). rewrite <- Ez. apply (BinarySingleNaN.generic_format_B2R 53 1024). }
  assert (V : Valid_exp (FLT_exp (-1074) 53)) by (apply FLT_exp_valid; red; lia).
  assert (Q : powerRZ 2 (-1000) <= powerRZ 2 (-100)) by (apply pow2_le; lia). assert (Q' : powerRZ 2 (-100) <= / 1000000) by (simpl; lra).
  assert (SL := succ_le_lt radix2 (FLT_exp (-1074) 53) _ _ (G a Fa) (G b Fb) L).
  rewrite succ_eq_pos in SL by lra.
  assert (UM : ulp radix2 (FLT_exp (-1074) 53) (bpow radix2 (-12)) <= ulp radix2 (FLT_exp (-1074) 53) (fval a)).
  { apply ulp_le; [exact V|apply FLT_exp_monotone|]. rewrite (Rabs_pos_eq (bpow _ _)) by apply bpow_ge_0. rewrite Rabs_pos_eq by lra. simpl. lra. }
  rewrite ulp_bpow in UM. change (FLT_exp (-1074) 53 (-12 + 1)) with (-64)%Z in UM. rewrite bpow_powerRZ in UM. change (IZR radix2) with 2 in UM.
  assert (powerRZ 2 (-100) < powerRZ 2 (-64)) by (simpl; lra). lra.
Qed.

(** the computed partial derivatives, given water that is known up to 1e-13: within er of rs and rt, which are at most Br *)
Definition st64 (s0 pm : R) (g : f64 -> f64 -> f64 -> res (f64 * f64)) (rs rt : R -> R -> R -> R) (er Br : R) : Prop :=
  forall (s t p : f64) vs vt, s0 <= vs <= 42 -> 0 < vs -> -3 <= vt <= 40 -> finite64 p -> 0 <= fval p <= pm ->
    S_float.within s vs (dec 1 (-13)) -> S_float.within t vt (dec 1 (-13)) ->
    exists y z : f64, g s t p = Ok (y, z) /\ S_float.within y (rs vs vt (fval p)) er /\ S_float.within z (rt vs vt (fval p)) er
      /\ Rabs (rs vs vt (fval p)) <= Br /\ Rabs (rt vs vt (fval p)) <= Br.

Section Layer.
  Variables (s0 pm : R) (geos : f64 -> f64 -> f64 -> res (f64 * f64)) (rs rt : R -> R -> R -> R) (er Br : R).
  Hypothesis Hgeos : st64 s0 pm geos rs rt er Br.
  Hypotheses (S0 : 0 <= s0) (Pm : pm <= 10000) (Er : 0 <= er <= / 1000 * Br) (HBr : powerRZ 2 (-40) <= Br <= powerRZ 2 10).
  Variables (Pi Pj Si Sj Ti Tj dp : f64).
  Hypotheses (FPi : finite64 Pi) (FPj : finite64 Pj) (FSi : finite64 Si) (FSj : finite64 Sj) (FTi : finite64 Ti) (FTj : finite64 Tj) (Fdp : finite64 dp).
  Hypotheses (HPi : 0 <= fval Pi) (HPj : fval Pj <= pm) (Hsp : / 1000 <= fval Pj - fval Pi) (Hdp : / 1000 <= fval dp <= 5000).
  Hypotheses (HSi : s0 <= fval Si <= 42) (HSj : s0 <= fval Sj <= 42) (PSi : 0 < fval Si) (PSj : 0 < fval Sj).
  Hypotheses (HTi : -3 <= fval Ti <= 40) (HTj : -3 <= fval Tj <= 40).
  Notation h := (fval Pj - fval Pi).
  Notation kS := ((fval Sj - fval Si) / (fval Pj - fval Pi)).
  Notation kT := ((fval Tj - fval Ti) / (fval Pj - fval Pi)).
  Variables (f g : R -> R).
  Hypothesis Hf : forall x, fval Pi <= x <= fval Pj -> f x = rs (fval Si + (x - fval Pi) * kS) (fval Ti + (x - fval Pi) * kT) x.
  Hypothesis Hg : forall x, fval Pi <= x <= fval Pj -> g x = rt (fval Si + (x - fval Pi) * kS) (fval Ti + (x - fval Pi) * kT) x.
  Definition w64 : R := Rabs (fval Sj - fval Si) + Rabs (fval Tj - fval Ti) + 2 * tau.
  Definition ey : R := 101 / 100 * er + 9 * (u64 * Br).
  Definition cS64 : list f64 := [div (sub Sj Si) (sub Pj Pi); Si].
  Definition cT64 : list f64 := [div (sub Tj Ti) (sub Pj Pi); Ti].
  Definition Yr (x : R) : R := f x * kS + g x * kT.
  Definition body64 (pi : f64) : res f64 :=
    let dx := sub pi Pi in
    let! r := geos (pval dx cS64 0) (pval dx cT64 0) pi in
    Ok (add (mul (fst r) (pval dx cS64 1)) (mul (snd r) (pval dx cT64 1))).

  Lemma convex a b x k : 0 <= x - fval Pi <= h -> k = (b - a) / h -> Rmin a b <= a + (x - fval Pi) * k <= Rmax a b.
  Proof.
    intros H ->. set (q := (x - fval Pi) / h). assert (Q : 0 <= q <= 1).
    { unfold q. split; [apply Rmult_le_pos; [lra|left; apply Rinv_0_lt_compat; lra]|]. apply Rmult_le_reg_r with h; [lra|]. unfold Rdiv. rewrite Rmult_assoc, Rinv_l by lra. lra. }
    replace (a + (x - fval Pi) * ((b - a) / h)) with ((1 - q) * a + q * b) by (unfold q; field; lra).
    unfold Rmin, Rmax. destruct (Rle_dec a b) as [L|L].
    - split.
      + replace a with ((1 - q) * a + q * a) at 1 by ring. apply Rplus_le_compat_l. apply Rmult_le_compat_l; lra.
      + replace b with ((1 - q) * b + q * b) at 2 by ring. apply Rplus_le_compat_r. apply Rmult_le_compat_l; lra.
    - split.
      + replace b with ((1 - q) * b + q * b) at 1 by ring. apply Rplus_le_compat_r. apply Rmult_le_compat_l; lra.
      + replace a with ((1 - q) * a + q * a) at 2 by ring. apply Rplus_le_compat_l. apply Rmult_le_compat_l; lra.
  Qed.

  Lemma value64 (x Yi Yj : f64) : finite64 x -> fval Pi <= fval x <= fval Pj -> finite64 Yi -> finite64 Yj -> Rabs (fval Yi) <= 42 -> Rabs (fval Yj) <= 42 ->
    S_float.within (pval (sub x Pi) [div (sub Yj Yi) (sub Pj Pi); Yi] 0) (fval Yi + (fval x - fval Pi) * ((fval Yj - fval Yi) / h)) (dec 1 (-13)).
  Proof.
    intros Fx Hx Fi Fj Bi Bj.
    destruct (lin_round x Pi Pj Yi Yj 42 Fx FPi FPj Fi Fj) as [Fy By]; trivial.
    - split; [apply Rle_trans with 1; [|lra]; replace 1 with (powerRZ 2 0) by reflexivity; apply pow2_le; lia|].
      apply Rle_trans with (powerRZ 2 10); [simpl; lra|apply pow2_le; lia].
    - split; [apply Rle_trans with (powerRZ 2 (-10)); [apply pow2_le; lia|simpl; lra]|]. apply Rle_trans with (powerRZ 2 20); [simpl; lra|apply pow2_le; lia].
    - split; [exact Fy|]. eapply Rle_trans; [exact By|]. unfold dec. simpl. lra.
  Qed.

  Lemma W_bounds : 0 < w64 / h /\ w64 / h <= 200000 /\ powerRZ 2 (-250) <= w64 / h.
  Proof.
    unfold w64. pose proof tau_pos. pose proof tau_small as TS. pose proof (Rabs_pos (fval Sj - fval Si)). pose proof (Rabs_pos (fval Tj - fval Ti)).
    assert (Rabs (fval Sj - fval Si) <= 42) by (apply Rabs_le; lra). assert (Rabs (fval Tj - fval Ti) <= 43) by (apply Rabs_le; lra).
    set (a := Rabs (fval Sj - fval Si)) in *. set (b := Rabs (fval Tj - fval Ti)) in *. simpl in TS.
    assert (i0 : 0 < / h) by (apply Rinv_0_lt_compat; lra).
    split; [|split].
    - apply Rdiv_lt_0_compat; lra.
    - unfold Rdiv. apply Rle_trans with (100 * 1000); [|lra]. apply Rmult_le_compat; try lra. replace 1000 with (/ / 1000) by lra. apply Rinv_le_contravar; lra.
    - apply Rle_trans with (tau * / 10000).
      + unfold tau. replace (-250)%Z with (-200 + -50)%Z by lia. rewrite <- pow2_mul. apply Rmult_le_compat_l; [left; apply pow2_pos|]. simpl. lra.
      + unfold Rdiv. apply Rmult_le_compat; try lra. apply Rinv_le_contravar; lra.
  Qed.

  Lemma integrand64 (x : f64) : finite64 x -> fval Pi <= fval x <= fval Pj ->
    exists y, body64 x = Ok y /\ finite64 y /\ Rabs (fval y - Yr (fval x)) <= ey * (w64 / h) /\ Rabs (Yr (fval x)) <= Br * (w64 / h).
  Proof.
    intros Fx Hx. pose proof u_is as U. assert (U0 := u64_pos). assert (E0 := eta64_pos). assert (T0 := tau_pos). assert (Et := eta_tau).
    assert (V1 := value64 x Si Sj Fx Hx FSi FSj ltac:(apply Rabs_le; lra) ltac:(apply Rabs_le; lra)).
    assert (V2 := value64 x Ti Tj Fx Hx FTi FTj ltac:(apply Rabs_le; lra) ltac:(apply Rabs_le; lra)).
    assert (C1 := convex (fval Si) (fval Sj) (fval x) kS ltac:(lra) eq_refl). assert (C2 := convex (fval Ti) (fval Tj) (fval x) kT ltac:(lra) eq_refl).
    assert (Q1 : s0 <= fval Si + (fval x - fval Pi) * kS <= 42 /\ 0 < fval Si + (fval x - fval Pi) * kS).
    { revert C1. unfold Rmin, Rmax. destruct (Rle_dec (fval Si) (fval Sj)); lra. }
    assert (Q2 : -3 <= fval Ti + (fval x - fval Pi) * kT <= 40).
    { revert C2. unfold Rmin, Rmax. destruct (Rle_dec (fval Ti) (fval Tj)); lra. }
    destruct (Hgeos _ _ x _ _ (proj1 Q1) (proj2 Q1) Q2 Fx ltac:(lra) V1 V2) as (r1 & r2 & Eg & [Fr1 W1] & [Fr2 W2] & B1 & B2).
    rewrite <- (Hf (fval x) Hx) in W1, B1. rewrite <- (Hg (fval x) Hx) in W2, B2.
    destruct (slope64 Pi Pj Si Sj FPi FPj FSi FSj ltac:(lra) ltac:(apply Rabs_le; lra) ltac:(apply Rabs_le; lra)) as [Fc1 K1].
    destruct (slope64 Pi Pj Ti Tj FPi FPj FTi FTj ltac:(lra) ltac:(apply Rabs_le; lra) ltac:(apply Rabs_le; lra)) as [Fc2 K2].
    assert (WB := W_bounds).
    assert (EW : w64 / h = (Rabs (fval Sj - fval Si) + tau) / h + (Rabs (fval Tj - fval Ti) + tau) / h) by (unfold w64; field; lra).
    assert (i0 : 0 < / h) by (apply Rinv_0_lt_compat; lra).
    assert (ih : / h <= 1000) by (replace 1000 with (/ / 1000) by lra; apply Rinv_le_contravar; lra).
    assert (A1 : Rabs kS <= (Rabs (fval Sj - fval Si) + tau) / h).
    { unfold Rdiv. rewrite Rabs_mult, (Rabs_pos_eq (/ h)) by lra. apply Rmult_le_compat_r; lra. }
    assert (A2 : Rabs kT <= (Rabs (fval Tj - fval Ti) + tau) / h).
    { unfold Rdiv. rewrite Rabs_mult, (Rabs_pos_eq (/ h)) by lra. apply Rmult_le_compat_r; lra. }
    assert (P1 : powerRZ 2 (-250) <= (Rabs (fval Sj - fval Si) + tau) / h).
    { apply Rle_trans with (tau * / 10000).
      - unfold tau. replace (-250)%Z with (-200 + -50)%Z by lia. rewrite <- pow2_mul. apply Rmult_le_compat_l; [left; apply pow2_pos|]. simpl. lra.
      - unfold Rdiv. pose proof (Rabs_pos (fval Sj - fval Si)). apply Rmult_le_compat; try lra. apply Rinv_le_contravar; lra. }
    assert (P2 : powerRZ 2 (-250) <= (Rabs (fval Tj - fval Ti) + tau) / h).
    { apply Rle_trans with (tau * / 10000).
      - unfold tau. replace (-250)%Z with (-200 + -50)%Z by lia. rewrite <- pow2_mul. apply Rmult_le_compat_l; [left; apply pow2_pos|]. simpl. lra.
      - unfold Rdiv. pose proof (Rabs_pos (fval Tj - fval Ti)). apply Rmult_le_compat; try lra. apply Rinv_le_contravar; lra. }
    rewrite EW in *. unfold Yr. unfold body64, cS64, cT64. rewrite Eg. cbn [bind fst snd].
    set (w1 := (Rabs (fval Sj - fval Si) + tau) / h) in *. set (w2 := (Rabs (fval Tj - fval Ti) + tau) / h) in *.
    set (k1 := kS) in *. set (k2 := kT) in *. set (R1 := f (fval x)) in *. set (R2 := g (fval x)) in *.
    set (c1 := div (sub Sj Si) (sub Pj Pi) : f64) in *. set (c2 := div (sub Tj Ti) (sub Pj Pi) : f64) in *.
    assert (Z : 0 < powerRZ 2 (-250)) by apply pow2_pos.
    clearbody w1 w2 k1 k2 R1 R2 c1 c2.
    assert (u1 : 0 <= u64 * w1 <= / 1000000 * w1) by (split; [apply Rmult_le_pos; lra|apply Rmult_le_compat_r; [lra|rewrite U; lra]]).
    assert (u2 : 0 <= u64 * w2 <= / 1000000 * w2) by (split; [apply Rmult_le_pos; lra|apply Rmult_le_compat_r; [lra|rewrite U; lra]]).
    assert (c1b : Rabs (fval c1) <= 1001 / 1000 * w1) by (replace (fval c1) with ((fval c1 - k1) + k1) by ring; eapply Rle_trans; [apply Rabs_triang|]; lra).
    assert (c2b : Rabs (fval c2) <= 1001 / 1000 * w2) by (replace (fval c2) with ((fval c2 - k2) + k2) by ring; eapply Rle_trans; [apply Rabs_triang|]; lra).
    assert (Fdx : finite64 (sub x Pi : f64) /\ Rabs (fval (sub x Pi : f64)) <= 10 ^ 10).
    { destruct (sf_sub_near x Pi Fx FPi) as [Fd Vd]; [apply big_ok; rewrite Rabs_pos_eq by lra; simpl; lra|]. split; [exact Fd|].
      change (sf_sub x Pi) with (sub x Pi) in *. rewrite (Rabs_pos_eq (fval x - fval Pi)) in Vd by lra. apply abs_le_of in Vd.
      assert (u64 * (fval x - fval Pi) <= 1 * (fval x - fval Pi)) by (apply Rmult_le_compat_r; [lra|rewrite U; lra]).
      assert (0 <= u64 * (fval x - fval Pi)) by (apply Rmult_le_pos; lra). pose proof eta_tiny as E'. rewrite U in E'. simpl in E'. set (dx := sub x Pi : f64) in *. clearbody dx. apply Rabs_le. simpl. split; lra. }
    destruct Fdx as [Fd Bd]. set (dx := sub x Pi : f64) in *. clearbody dx.
    destruct (pval_line1 dx c1 Si Fd Bd Fc1 ltac:(simpl; lra)) as [Fp1 Ep1]. destruct (pval_line1 dx c2 Ti Fd Bd Fc2 ltac:(simpl; lra)) as [Fp2 Ep2].
    set (p1 := pval dx [c1; Si] 1) in *. set (p2 := pval dx [c2; Ti] 1) in *. clearbody p1 p2.
    assert (P10 : powerRZ 2 10 = 1024) by (simpl; lra). assert (Br0 : 0 < Br) by (pose proof (pow2_pos (-40)); lra).
    (* products *)
    assert (G : forall (r p : f64) R k w c, finite64 r -> finite64 p -> fval p = c -> Rabs (fval r - R) <= er -> Rabs (c - k) <= 5 * u64 * w -> Rabs R <= Br -> Rabs k <= w ->
        powerRZ 2 (-250) <= w <= 200000 -> Rabs c <= 1001 / 1000 * w ->
        finite64 (mul r p : f64) /\ Rabs (fval (mul r p : f64) - R * k) <= (1001 / 1000 * er + 61 / 10 * (u64 * Br)) * w /\ Rabs (R * k) <= Br * w /\ eta64 <= / 100 * (u64 * Br * w)).
    { clear - Er HBr U U0 E0 P10 Br0 Z. intros r p R k w c Fr Fp Ep Hr Hc HR Hk Hw Hcb.
      assert (u1 : 0 <= u64 * w <= / 1000000 * w) by (split; [apply Rmult_le_pos; lra|apply Rmult_le_compat_r; [lra|rewrite U; lra]]).
      assert (Bw : 0 < Br * w) by (apply Rmult_lt_0_compat; lra).
      assert (Bwb : Br * w <= 1024 * 200000) by (apply Rmult_le_compat; lra).
      assert (ew : 0 <= er * w <= / 1000 * (Br * w)) by (split; [apply Rmult_le_pos; lra|]; rewrite <- Rmult_assoc; apply Rmult_le_compat_r; lra).
      assert (uB : 0 <= u64 * Br * w <= / 1000000 * (Br * w)) by (split; [apply Rmult_le_pos; [apply Rmult_le_pos; lra|lra]|]; rewrite Rmult_assoc; apply Rmult_le_compat_r; [lra|rewrite U; lra]).
      assert (eu : 0 <= er * (u64 * w) <= / 1000000 * (er * w)) by (split; [apply Rmult_le_pos; lra|]; replace (/ 1000000 * (er * w)) with (er * (/ 1000000 * w)) by ring; apply Rmult_le_compat_l; lra).
      pose proof (mul_close _ _ _ _ _ _ Hr Hc) as M.
      assert (M1 : er * (Rabs k + 5 * u64 * w) <= er * (w + 5 * u64 * w)) by (apply Rmult_le_compat_l; lra).
      assert (M2 : Rabs R * (5 * u64 * w) <= Br * (5 * u64 * w)) by (apply Rmult_le_compat_r; lra).
      assert (RK : Rabs (R * k) <= Br * w) by (rewrite Rabs_mult; apply Rmult_le_compat; try apply Rabs_pos; lra).
      assert (M3 : Rabs (fval r * c - R * k) <= 1001 / 1000 * (er * w) + 5 * (u64 * Br * w)) by lra.
      assert (M4 : Rabs (fval r * c) <= 101 / 100 * (Br * w)).
      { replace (fval r * c) with ((fval r * c - R * k) + R * k) by ring. eapply Rle_trans; [apply Rabs_triang|]. lra. }
      assert (ET : eta64 <= / 100 * (u64 * Br * w)).
      { apply Rle_trans with (/ 100 * (u64 * powerRZ 2 (-40) * powerRZ 2 (-250))).
        - replace u64 with (powerRZ 2 (-53)) by (rewrite U; simpl; lra). rewrite !pow2_mul. unfold eta64. replace (-1075)%Z with (-732 + (-53 + -40 + -250))%Z by lia. rewrite <- pow2_mul.
          apply Rmult_le_compat_r; [left; apply pow2_pos|]. apply Rle_trans with (powerRZ 2 (-10)); [apply pow2_le; lia|simpl; lra].
        - pose proof (pow2_pos (-40)) as Z4. apply Rmult_le_compat_l; [lra|]. apply Rmult_le_compat; try lra; [apply Rmult_le_pos; lra|]. apply Rmult_le_compat_l; lra. }
      rewrite <- Ep in M3, M4.
      destruct (sf_mul_near r p Fr Fp) as [Fz Vz]; [apply big_ok; simpl; lra|]. change (sf_mul r p) with (mul r p) in *.
      split; [exact Fz|]. split; [|split; [exact RK|exact ET]].
      replace (fval (mul r p) - R * k) with ((fval (mul r p) - fval r * fval p) + (fval r * fval p - R * k)) by ring. eapply Rle_trans; [apply Rabs_triang|].
      assert (u64 * Rabs (fval r * fval p) <= u64 * (101 / 100 * (Br * w))) by (apply Rmult_le_compat_l; lra). lra. }
    destruct (G r1 p1 R1 k1 w1 _ Fr1 Fp1 Ep1 W1 K1 B1 A1 ltac:(lra) c1b) as (Fz1 & Vz1 & L1 & e1).
    destruct (G r2 p2 R2 k2 w2 _ Fr2 Fp2 Ep2 W2 K2 B2 A2 ltac:(lra) c2b) as (Fz2 & Vz2 & L2 & e2). clear G.
    set (z1 := mul r1 p1 : f64) in *. set (z2 := mul r2 p2 : f64) in *. exists (add z1 z2). split; [reflexivity|]. clearbody z1 z2.
    assert (Bw : 0 < Br * (w1 + w2)) by (apply Rmult_lt_0_compat; lra).
    assert (Bwb : Br * (w1 + w2) <= 1024 * 200000) by (apply Rmult_le_compat; lra).
    assert (ew : 0 <= er * (w1 + w2) <= / 1000 * (Br * (w1 + w2))) by (split; [apply Rmult_le_pos; lra|]; rewrite <- Rmult_assoc; apply Rmult_le_compat_r; lra).
    assert (uB : 0 <= u64 * Br * (w1 + w2) <= / 1000000 * (Br * (w1 + w2))) by (split; [apply Rmult_le_pos; [apply Rmult_le_pos; lra|lra]|]; rewrite Rmult_assoc; apply Rmult_le_compat_r; [lra|rewrite U; lra]).
    assert (S1 : Rabs (R1 * k1 + R2 * k2) <= Br * (w1 + w2)) by (eapply Rle_trans; [apply Rabs_triang|]; lra).
    assert (S2 : Rabs (fval z1 + fval z2 - (R1 * k1 + R2 * k2)) <= 1001 / 1000 * (er * (w1 + w2)) + 61 / 10 * (u64 * Br * (w1 + w2))).
    { replace (_ - _) with ((fval z1 - R1 * k1) + (fval z2 - R2 * k2)) by ring. eapply Rle_trans; [apply Rabs_triang|]. lra. }
    assert (S3 : Rabs (fval z1 + fval z2) <= 101 / 100 * (Br * (w1 + w2))).
    { replace (fval z1 + fval z2) with ((fval z1 + fval z2 - (R1 * k1 + R2 * k2)) + (R1 * k1 + R2 * k2)) by ring. eapply Rle_trans; [apply Rabs_triang|]. lra. }
    destruct (sf_add_near z1 z2 Fz1 Fz2) as [Fy Vy]; [apply big_ok; simpl; lra|]. change (sf_add z1 z2) with (add z1 z2) in *.
    split; [exact Fy|]. split; [|exact S1].
    replace (fval (add z1 z2) - (R1 * k1 + R2 * k2)) with ((fval (add z1 z2) - (fval z1 + fval z2)) + (fval z1 + fval z2 - (R1 * k1 + R2 * k2))) by ring.
    eapply Rle_trans; [apply Rabs_triang|].
    assert (u64 * Rabs (fval z1 + fval z2) <= u64 * (101 / 100 * (Br * (w1 + w2)))) by (apply Rmult_le_compat_l; lra). unfold ey. lra.
  Qed.

  Lemma body_mapM l : List.Forall (fun x : f64 => finite64 x /\ fval Pi <= fval x <= fval Pj) l ->
    exists ys, mapM body64 l = Ok ys /\ Forall2 (good Yr (ey * (w64 / h)) (11 / 10 * Br * (w64 / h))) l ys.
  Proof.
    pose proof u_is as U. assert (U0 := u64_pos). assert (Br0 : 0 < Br) by (pose proof (pow2_pos (-40)); lra). assert (WB := W_bounds).
    induction 1 as [|x l [Fx Hx] _ IH]; [exists []; split; [reflexivity|constructor]|].
    destruct IH as (ys & E & G). destruct (integrand64 x Fx Hx) as (y & Ey & Fy & V1 & V2).
    exists (y :: ys). cbn [mapM]. rewrite Ey, E. split; [reflexivity|]. constructor; [|exact G].
    split; [exact Fx|]. split; [exact Fy|]. split; [exact V1|].
    replace (fval y) with ((fval y - Yr (fval x)) + Yr (fval x)) by ring. eapply Rle_trans; [apply Rabs_triang|].
    apply Rle_trans with ((ey + Br) * (w64 / h)); [lra|]. apply Rmult_le_compat_r; [lra|]. unfold ey.
    assert (u64 * Br <= / 1000000 * Br) by (apply Rmult_le_compat_r; [lra|rewrite U; lra]). lra.
  Qed.

  Variable eT : R.
  Hypotheses (HeT : 0 <= eT) (Cf : forall x, continuity_pt f x) (Cg : forall x, continuity_pt g x).
  Hypothesis Hstep : forall a b, fval Pi <= a -> a <= b -> b <= fval Pj -> b - a <= fval dp * (1 + powerRZ 2 (-20)) ->
    Rabs ((b - a) * ((Yr b + Yr a) / 2) - RInt Yr a b) <= eT * (b - a).
  Definition kap : R := 101 / 100 * er + u64 * Br * (18 + 13200 / fval dp).

  Lemma Yr_cont x : continuity_pt Yr x.
  Proof.
    unfold Yr. apply continuity_pt_plus; apply continuity_pt_mult; try apply Cf; try apply Cg; apply continuity_pt_const; intros ? ?; reflexivity.
  Qed.

  (** one call of _int_x_k from a point of the layer *)
  Lemma layer64 (a : f64) P Sppc Tppc k : finite64 a -> fval Pi <= fval a <= fval Pj ->
    get P (k + 1) = Ok Pj -> get P k = Ok Pi -> get Sppc k = Ok cS64 -> get Tppc k = Ok cT64 ->
    exists x, _int_x_k a k dp P Sppc Tppc geos = Ok x /\ finite64 x
      /\ Rabs (fval x - RInt Yr (fval a) (fval Pj)) <= eT * (fval Pj - fval a) + w64 * kap
      /\ Rabs (fval x) <= 132 / 100 * (Br * w64).
  Proof.
    intros Fa Ha G1 G2 G3 G4. pose proof u_is as U. assert (U0 := u64_pos). assert (Br0 : 0 < Br) by (pose proof (pow2_pos (-40)); lra). assert (WB := W_bounds).
    destruct (linspace64 a Pj dp Fa FPj Fdp ltac:(lra) ltac:(lra) ltac:(lra) Hdp) as (q & m & Eq & Iq & Ec & Hm & Hm40 & Hlen & Hall & Hch & l & El & Hlast).
    unfold _int_x_k. rewrite G1. cbn [bind]. rewrite Eq. cbn [bind]. rewrite Iq. cbn [negb].
    rewrite Ec. destruct (Z.ltb_spec (Z.of_nat (S m)) 0) as [?|_]; [lia|]. rewrite Nat2Z.id.
    set (xs := linspace a Pj (S m)) in *. clearbody xs.
    assert (Hall' : List.Forall (fun x : f64 => finite64 x /\ fval Pi <= fval x <= fval Pj) xs).
    { eapply Forall_impl; [|exact Hall]. intros x [F1 F2]. split; [exact F1|lra]. }
    destruct (body_mapM xs Hall') as (ys & EM & HG).
    match goal with |- context [mapM ?b xs] => assert (EB : mapM b xs = mapM body64 xs) end.
    { clear - G2 G3 G4. induction xs as [|x t IH]; [reflexivity|]. cbn [mapM]. rewrite IH. rewrite G2, G3, G4. cbn [bind]. reflexivity. }
    rewrite EB, EM. cbn [bind].
    assert (W0 : w64 = (w64 / h) * h) by (field; lra). set (W := w64 / h) in *.
    assert (BW : 0 < Br * W) by (apply Rmult_lt_0_compat; lra).
    assert (P10 : powerRZ 2 10 = 1024) by (simpl; lra).
    assert (Er0 : 0 <= ey) by (unfold ey; assert (0 <= u64 * Br) by (apply Rmult_le_pos; lra); lra).
    assert (HBB : powerRZ 2 (-900) <= 11 / 10 * Br * W <= powerRZ 2 60).
    { split.
      - apply Rle_trans with (powerRZ 2 (-40) * powerRZ 2 (-250)); [rewrite pow2_mul; apply pow2_le; lia|].
        apply Rmult_le_compat; try lra; left; apply pow2_pos.
      - apply Rle_trans with (11 / 10 * 1024 * 200000); [|apply Rle_trans with (powerRZ 2 40); [simpl; lra|apply pow2_le; lia]]. apply Rmult_le_compat; lra. }
    assert (d1 : fval dp * (1 + powerRZ 2 (-20)) <= 10000) by (apply Rle_trans with (5000 * (1 + powerRZ 2 (-20))); [apply Rmult_le_compat_r; [pose proof (pow2_pos (-20)); lra|lra]|simpl; lra]).
    destruct (trapz64 Yr (ey * W) (11 / 10 * Br * W) h HBB ltac:(lra) _ xs ys m (fval a) HG Hch d1 Hlen Hm40) as (Fx & Bx & Vx).
    { rewrite El. cbn [hd]. destruct Hlast as [->|[-> Hl]]; [lra|]. destruct l as [|l0 l]; [cbn [last]; lra|].
      assert (EE : length (map fval xs) = 1%nat) by (rewrite map_length; exact Hlen). rewrite El in EE. discriminate. }
    rewrite El in Vx. cbn [hd] in Vx.
    exists (trapz ys xs). split; [reflexivity|]. split; [exact Fx|].
    assert (HB1 : h * (11 / 10 * Br * W) = 11 / 10 * (Br * w64)) by (rewrite W0 at 1; ring).
    assert (ww : 0 < Br * w64) by (rewrite W0; rewrite <- Rmult_assoc; apply Rmult_lt_0_compat; lra).
    split; [|replace (12 / 10 * h * (11 / 10 * Br * W)) with (12 / 10 * (h * (11 / 10 * Br * W))) in Bx by ring; rewrite HB1 in Bx; lra].
    replace (h * (11 / 10 * Br * W) * u64 * (5 + 12 / 10 * INR m)) with (11 / 10 * (Br * w64) * u64 * (5 + 12 / 10 * INR m)) in Vx by (rewrite <- HB1; ring).
    assert (uBw : 0 < Br * w64 * u64) by (apply Rmult_lt_0_compat; lra).
    assert (Vm : Br * w64 * u64 * INR m <= Br * w64 * u64 * (10000 / fval dp + 2)) by (apply Rmult_le_compat_l; lra).
    assert (HL : fval a <= last (fval a :: l) (fval a) <= fval Pj).
    { split; [rewrite El in Hch; apply (chain_last _ _ _ Hch)|]. destruct Hlast as [->|[-> Hl]]; [lra|].
      destruct l as [|l0 l]; [cbn [last]; lra|]. assert (EE : length (map fval xs) = 1%nat) by (rewrite map_length; exact Hlen). rewrite El in EE. discriminate. }
    set (L := last (fval a :: l) (fval a)) in *.
    assert (Ve : (L - fval a) * (ey * W) <= ey * w64).
    { rewrite W0. replace (ey * (W * h)) with (h * (ey * W)) by ring. apply Rmult_le_compat_r; [apply Rmult_le_pos; lra|lra]. }
    assert (TE := tlist_error Yr _ eT (fval Pi) (fval Pj) Yr_cont Hstep l (fval a) ltac:(lra) ltac:(rewrite <- El; exact Hch) ltac:(fold L; lra)). fold L in TE. rewrite <- El in TE, Vx.
    assert (EL : L = fval Pj).
    { destruct Hlast as [E'|[M0 Hl]]; [exact E'|]. assert (Ea := apart64 a Pj Fa FPj ltac:(lra) ltac:(lra) Hl). lra. }
    replace (fval (trapz ys xs) - RInt Yr (fval a) (fval Pj)) with ((fval (trapz ys xs) - tlist Yr (map fval xs)) + (tlist Yr (map fval xs) - RInt Yr (fval a) L)) by (rewrite EL; ring).
    eapply Rle_trans; [apply Rabs_triang|].
    assert (eT * (L - fval a) <= eT * (fval Pj - fval a)) by (apply Rmult_le_compat_l; lra).
    assert (KE : w64 * kap = ey * w64 + 9 * (Br * w64 * u64) + 132 / 100 * (Br * w64 * u64 * (10000 / fval dp))) by (unfold kap, ey; field; lra).
    rewrite KE. lra.
  Qed.
End Layer.
