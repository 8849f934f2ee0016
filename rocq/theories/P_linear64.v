(** * Linear interpolation in binary64 *)
From Coq Require Import ZArith Reals List SpecFloat Lia Lra Psatz Bool.
From Flocq Require Import Core.Raux.
From Verif Require Import Num XR SF Res Arr ArrLemmas XRlemmas M_numpy M_ppinterp S_float P_float P_fl S_interp S_domain S_traj S_vert64
  P_holds P_ppinterp P_pval P_interp P_coeffs P_interp2 P_traj P_brent64.
Import ListNotations.
Local Open Scope R_scope.

Lemma pow2_mul a b : powerRZ 2 a * powerRZ 2 b = powerRZ 2 (a + b).
Proof. symmetry. apply powerRZ_add. lra. Qed.
Lemma pow2_le a b : (a <= b)%Z -> powerRZ 2 a <= powerRZ 2 b.
Proof. intros H. rewrite <- !(bpow_powerRZ Zaux.radix2). apply bpow_le. exact H. Qed.
Lemma pow2_pos a : 0 < powerRZ 2 a.
Proof. apply powerRZ_lt. lra. Qed.

Lemma abs_le_of a b e : Rabs (a - b) <= e -> b - e <= a <= b + e.
Proof. intros H. apply Rabs_le_inv in H. lra. Qed.

Section Lin.
  Variables (x Xi Xj Yi Yj : f64) (M : R).
  Hypothesis (Fx : finite64 x) (FXi : finite64 Xi) (FXj : finite64 Xj) (FYi : finite64 Yi) (FYj : finite64 Yj).
  Hypothesis HM : powerRZ 2 (-90) <= M <= powerRZ 2 90.
  Hypothesis Hh : powerRZ 2 (-900) <= fval Xj - fval Xi <= powerRZ 2 900.
  Hypothesis Hx : fval Xi <= fval x <= fval Xj.
  Hypothesis (HYi : Rabs (fval Yi) <= M) (HYj : Rabs (fval Yj) <= M).

  Let h := fval Xj - fval Xi.
  Let D := fval x - fval Xi.
  Let dY := fval Yj - fval Yi.

  Lemma eta_M : eta64 <= / 1000 * (u64 * M).
  Proof.
    assert (A : powerRZ 2 (-90) * (u64 * / 1000) <= M * (u64 * / 1000)) by (apply Rmult_le_compat_r; [unfold u64; lra|lra]).
    assert (B : eta64 <= powerRZ 2 (-90) * (u64 * / 1000)).
    { apply Rle_trans with (powerRZ 2 (-90) * powerRZ 2 (-63)).
      - rewrite pow2_mul. unfold eta64. apply pow2_le. lia.
      - apply Rmult_le_compat_l; [left; apply pow2_pos|]. unfold u64. rewrite <- (bpow_powerRZ Zaux.radix2). simpl. lra. }
    lra.
  Qed.
  Lemma eta_h : eta64 <= / 1000 * (u64 * h).
  Proof.
    assert (A : powerRZ 2 (-900) * (u64 * / 1000) <= h * (u64 * / 1000)) by (apply Rmult_le_compat_r; [unfold u64; lra|unfold h; lra]).
    assert (B : eta64 <= powerRZ 2 (-900) * (u64 * / 1000)).
    { apply Rle_trans with (powerRZ 2 (-900) * powerRZ 2 (-63)).
      - rewrite pow2_mul. unfold eta64. apply pow2_le. lia.
      - apply Rmult_le_compat_l; [left; apply pow2_pos|]. unfold u64. rewrite <- (bpow_powerRZ Zaux.radix2). simpl. lra. }
    lra.
  Qed.
  Lemma eta_hM : eta64 * h <= / 1000 * (u64 * M).
  Proof.
    apply Rle_trans with (powerRZ 2 (-174)).
    - replace (-174)%Z with (-1074 + 900)%Z by lia. rewrite <- pow2_mul. unfold eta64. apply Rmult_le_compat; try lra.
      + left; apply pow2_pos.
      + unfold h. pose proof (pow2_pos (-900)). lra.
      + apply pow2_le. lia.
      + unfold h. lra.
    - apply Rle_trans with (powerRZ 2 (-63) * powerRZ 2 (-90)).
      + rewrite pow2_mul. apply pow2_le. lia.
      + replace (/ 1000 * (u64 * M)) with (/ 1000 * u64 * M) by ring. apply Rmult_le_compat; try lra; try (left; apply pow2_pos).
        unfold u64. rewrite <- (bpow_powerRZ Zaux.radix2). simpl. lra.
  Qed.
  Lemma M_pos : 0 < M. Proof. pose proof (pow2_pos (-90)). lra. Qed.
  Lemma h_pos' : 0 < h. Proof. pose proof (pow2_pos (-900)). unfold h. lra. Qed.
  Lemma big_ge z : z <= powerRZ 2 999 -> z <= big64.
  Proof. intros H. eapply Rle_trans; [exact H|]. unfold big64. apply pow2_le. lia. Qed.
  Lemma M_big : 100 * M <= powerRZ 2 100.
  Proof.
    apply Rle_trans with (powerRZ 2 10 * powerRZ 2 90).
    - apply Rmult_le_compat; try lra; [left; apply M_pos|]. simpl. lra.
    - rewrite pow2_mul. apply pow2_le. lia.
  Qed.
  Lemma h_big : h <= powerRZ 2 900. Proof. unfold h. lra. Qed.
  Lemma inv_h_big : / h <= powerRZ 2 900.
  Proof.
    replace (powerRZ 2 900) with (/ powerRZ 2 (-900)).
    - apply Rinv_le; [apply pow2_pos|]. unfold h. lra.
    - rewrite <- !(bpow_powerRZ Zaux.radix2). rewrite <- bpow_opp. reflexivity.
  Qed.

  Lemma dY_bound : Rabs dY <= 2 * M.
  Proof. unfold dY. apply Rabs_le_inv in HYi. apply Rabs_le_inv in HYj. apply Rabs_le. lra. Qed.

  Definition lin_y : f64 :=
    add (mul (add (mul (lit 0 0) (sub x Xi)) (div (sub Yj Yi) (sub Xj Xi))) (sub x Xi)) Yi.

  Lemma lin_round : finite64 lin_y /\ Rabs (fval lin_y - (fval Yi + D * (dY / h))) <= powerRZ 2 (-49) * M.
  Proof.
    assert (e1 := eta_M). assert (e2 := eta_h). assert (e3 := eta_hM). assert (Mp := M_pos). assert (hp := h_pos').
    assert (Mb := M_big). assert (hb := h_big). assert (ib := inv_h_big). assert (yb := dY_bound).
    assert (p100 := pow2_le 100 999 ltac:(lia)). assert (p900 := pow2_le 900 999 ltac:(lia)). assert (ep := eta64_pos).
    assert (U : u64 = / 9007199254740992) by reflexivity.
    assert (Dh : 0 <= D <= h) by (unfold D, h; lra).
    (* width *)
    assert (A1 : Rabs h <= big64) by (rewrite Rabs_pos_eq by lra; apply big_ge; lra).
    destruct (sf_sub_near Xj Xi FXj FXi A1) as [Fh Eh]. fold h in Eh. rewrite (Rabs_pos_eq h) in Eh by lra.
    change (sf_sub Xj Xi) with (sub Xj Xi) in *. set (fh := sub Xj Xi) in *.
    (* distance *)
    assert (A2 : Rabs D <= big64) by (rewrite Rabs_pos_eq by lra; apply big_ge; lra).
    destruct (sf_sub_near x Xi Fx FXi A2) as [Fd Ed]. fold D in Ed. rewrite (Rabs_pos_eq D) in Ed by lra.
    change (sf_sub x Xi) with (sub x Xi) in *. set (fd := sub x Xi) in *.
    (* difference *)
    assert (A3 : Rabs dY <= big64) by (apply big_ge; lra).
    destruct (sf_sub_near Yj Yi FYj FYi A3) as [Fy Ey]. fold dY in Ey.
    change (sf_sub Yj Yi) with (sub Yj Yi) in *. set (fy := sub Yj Yi) in *.
    (* relative quantities *)
    set (a := fval fh / h). assert (Ha : fval fh = a * h) by (unfold a; field; lra).
    assert (Ba : Rabs (a - 1) <= 101 / 100 * u64).
    { replace (a - 1) with ((fval fh - h) * / h) by (unfold a; field; lra). rewrite Rabs_mult, (Rabs_pos_eq (/ h)).
      2:{ left. apply Rinv_0_lt_compat. exact hp. }
      apply Rmult_le_reg_r with h; [exact hp|]. rewrite Rmult_assoc, Rinv_l, Rmult_1_r by lra. lra. }
    set (r := fval fd / h). assert (Hr : fval fd = r * h) by (unfold r; field; lra).
    set (th := D / h). assert (Hth : D = th * h) by (unfold th; field; lra).
    assert (Bt : 0 <= th <= 1).
    { unfold th. split; [apply Rmult_le_pos; [lra|left; apply Rinv_0_lt_compat; exact hp]|]. apply Rmult_le_reg_r with h; [exact hp|]. unfold Rdiv. rewrite Rmult_assoc, Rinv_l by lra. lra. }
    assert (Br : Rabs (r - th) <= 101 / 100 * u64).
    { replace (r - th) with ((fval fd - D) * / h) by (unfold r, th; field; lra). rewrite Rabs_mult, (Rabs_pos_eq (/ h)).
      2:{ left. apply Rinv_0_lt_compat. exact hp. }
      apply Rmult_le_reg_r with h; [exact hp|]. rewrite Rmult_assoc, Rinv_l, Rmult_1_r by lra.
      assert (u64 * D <= u64 * h) by (apply Rmult_le_compat_l; lra). lra. }
    apply abs_le_of in Ba. apply abs_le_of in Br.
    assert (Ey' : Rabs (fval fy - dY) <= 201 / 100 * (u64 * M)).
    { eapply Rle_trans; [exact Ey|]. assert (u64 * Rabs dY <= u64 * (2 * M)) by (apply Rmult_le_compat_l; lra). lra. }
    (* quotient *)
    assert (Za : fval fh <> 0) by (rewrite Ha; apply Rmult_integral_contrapositive_currified; lra).
    set (q := fval fy / fval fh).
    assert (Hq : q * h * a = fval fy) by (unfold q; rewrite Ha; field; split; lra).
    assert (Bq : Rabs (q * h - dY) <= 41 / 10 * (u64 * M)).
    { assert (E : (q * h - dY) * a = (fval fy - dY) + dY * (1 - a)) by (rewrite Rmult_minus_distr_r, Hq; ring).
      assert (E2 : Rabs ((q * h - dY) * a) <= 201 / 100 * (u64 * M) + 2 * M * (101 / 100 * u64)).
      { rewrite E. eapply Rle_trans; [apply Rabs_triang|]. apply Rplus_le_compat; [exact Ey'|].
        rewrite Rabs_mult. apply Rmult_le_compat; try apply Rabs_pos; [exact yb|]. apply Rabs_le. lra. }
      rewrite Rabs_mult, (Rabs_pos_eq a) in E2 by lra. pose proof (Rabs_pos (q * h - dY)) as P.
      assert (Rabs (q * h - dY) * (999 / 1000) <= Rabs (q * h - dY) * a) by (apply Rmult_le_compat_l; lra). lra. }
    assert (Bqh : Rabs (q * h) <= 201 / 100 * M).
    { replace (q * h) with (dY + (q * h - dY)) by ring. eapply Rle_trans; [apply Rabs_triang|]. rewrite U in Bq. lra. }
    assert (A4 : Rabs q <= big64).
    { replace q with (q * h * / h) by (field; lra). rewrite Rabs_mult, (Rabs_pos_eq (/ h)).
      2:{ left. apply Rinv_0_lt_compat. exact hp. }
      apply big_ge. apply Rle_trans with (powerRZ 2 99 * powerRZ 2 900); [|rewrite pow2_mul; apply pow2_le; lia].
      apply Rmult_le_compat; try apply Rabs_pos; try assumption.
      + left. apply Rinv_0_lt_compat. exact hp.
      + assert (E : powerRZ 2 100 = 2 * powerRZ 2 99) by (change 100%Z with (1 + 99)%Z; rewrite <- pow2_mul; simpl powerRZ at 1; lra). lra. }
    destruct (sf_div_near fy fh Fy Fh Za A4) as [Fc Ec]. fold q in Ec.
    change (sf_div fy fh) with (div fy fh) in *. set (fc := div fy fh) in *.
    (* c h *)
    assert (Bc : Rabs (fval fc * h - dY) <= 62 / 10 * (u64 * M)).
    { replace (fval fc * h - dY) with ((fval fc - q) * h + (q * h - dY)) by ring. eapply Rle_trans; [apply Rabs_triang|].
      assert (Rabs ((fval fc - q) * h) <= u64 * (201 / 100 * M) + / 1000 * (u64 * M)).
      { rewrite Rabs_mult, (Rabs_pos_eq h) by lra.
        apply Rle_trans with ((u64 * Rabs q + eta64) * h); [apply Rmult_le_compat_r; lra|].
        rewrite Rabs_mult, (Rabs_pos_eq h) in Bqh by lra.
        assert (u64 * (Rabs q * h) <= u64 * (201 / 100 * M)) by (apply Rmult_le_compat_l; lra). lra. }
      lra. }
    assert (Bch : Rabs (fval fc * h) <= 202 / 100 * M).
    { replace (fval fc * h) with (dY + (fval fc * h - dY)) by ring. eapply Rle_trans; [apply Rabs_triang|]. rewrite U in Bc. lra. }
    (* 0 * d + c = c *)
    assert (Z1 : Rabs (rnd (fval (lit 0 0 : f64) * fval fd)) < bpow Zaux.radix2 1024).
    { rewrite (proj2 fl_zero), Rmult_0_l, rnd_zero, Rabs_R0. apply bpow_gt_0. }
    destruct (mul_val (lit 0 0 : f64) fd (proj1 fl_zero) Fd Z1) as [F0 E0].
    rewrite (proj2 fl_zero), Rmult_0_l, rnd_zero in E0. change (sf_mul (lit 0 0) fd) with (mul (lit 0 0) fd) in *.
    set (f0 := mul (lit 0 0) fd) in *.
    assert (Z2 : Rabs (rnd (fval f0 + fval fc)) < bpow Zaux.radix2 1024).
    { rewrite E0, Rplus_0_l, rnd_fval by exact Fc. apply fval_bound. exact Fc. }
    destruct (add_val f0 fc F0 Fc Z2) as [F1 E1]. rewrite E0, Rplus_0_l, rnd_fval in E1 by exact Fc.
    change (sf_add f0 fc) with (add f0 fc) in *. set (f1 := add f0 fc) in *.
    (* c d *)
    assert (Bz : Rabs (fval f1 * fval fd - D * (dY / h)) <= 83 / 10 * (u64 * M)).
    { rewrite E1, Hr. replace (fval fc * (r * h) - D * (dY / h)) with ((fval fc * h - dY) * r + dY * (r - th)).
      2:{ rewrite Hth. field. lra. }
      eapply Rle_trans; [apply Rabs_triang|]. rewrite !Rabs_mult.
      assert (Rabs (fval fc * h - dY) * Rabs r <= 62 / 10 * (u64 * M) * (1001 / 1000)).
      { apply Rmult_le_compat; try apply Rabs_pos; [exact Bc|]. apply Rabs_le. rewrite U in *. lra. }
      assert (Rabs dY * Rabs (r - th) <= 2 * M * (101 / 100 * u64)).
      { apply Rmult_le_compat; try apply Rabs_pos; [exact yb|]. apply Rabs_le. lra. }
      lra. }
    assert (Bt' : Rabs (D * (dY / h)) <= 2 * M).
    { replace (D * (dY / h)) with (th * dY) by (rewrite Hth; field; lra). rewrite Rabs_mult, (Rabs_pos_eq th) by lra.
      apply Rle_trans with (1 * (2 * M)); [|lra]. apply Rmult_le_compat; try lra. apply Rabs_pos. }
    assert (Bcd : Rabs (fval f1 * fval fd) <= 201 / 100 * M).
    { replace (fval f1 * fval fd) with (D * (dY / h) + (fval f1 * fval fd - D * (dY / h))) by ring.
      eapply Rle_trans; [apply Rabs_triang|]. rewrite U in Bz. lra. }
    assert (A5 : Rabs (fval f1 * fval fd) <= big64) by (apply big_ge; lra).
    destruct (sf_mul_near f1 fd F1 Fd A5) as [Fz Ez].
    change (sf_mul f1 fd) with (mul f1 fd) in *. set (fz := mul f1 fd) in *.
    assert (Bz2 : Rabs (fval fz - D * (dY / h)) <= 104 / 10 * (u64 * M)).
    { replace (fval fz - D * (dY / h)) with ((fval fz - fval f1 * fval fd) + (fval f1 * fval fd - D * (dY / h))) by ring.
      eapply Rle_trans; [apply Rabs_triang|].
      assert (u64 * Rabs (fval f1 * fval fd) <= u64 * (201 / 100 * M)) by (apply Rmult_le_compat_l; lra). lra. }
    set (w := fval Yi + D * (dY / h)).
    assert (Bw : Rabs w <= M).
    { unfold w. replace (D * (dY / h)) with (th * dY) by (rewrite Hth; field; lra). unfold dY.
      replace (fval Yi + th * (fval Yj - fval Yi)) with ((1 - th) * fval Yi + th * fval Yj) by ring.
      eapply Rle_trans; [apply Rabs_triang|]. rewrite !Rabs_mult, (Rabs_pos_eq th), (Rabs_pos_eq (1 - th)) by lra.
      assert ((1 - th) * Rabs (fval Yi) <= (1 - th) * M) by (apply Rmult_le_compat_l; lra).
      assert (th * Rabs (fval Yj) <= th * M) by (apply Rmult_le_compat_l; lra). lra. }
    assert (Bs : Rabs (fval fz + fval Yi) <= 101 / 100 * M).
    { replace (fval fz + fval Yi) with (w + (fval fz - D * (dY / h))) by (unfold w; ring).
      eapply Rle_trans; [apply Rabs_triang|]. rewrite U in Bz2. lra. }
    assert (A6 : Rabs (fval fz + fval Yi) <= big64) by (apply big_ge; lra).
    destruct (sf_add_near fz Yi Fz FYi A6) as [Fr Er].
    change (sf_add fz Yi) with (add fz Yi) in *.
    split; [exact Fr|]. change lin_y with (add fz Yi).
    replace (fval (add fz Yi) - w) with ((fval (add fz Yi) - (fval fz + fval Yi)) + (fval fz - D * (dY / h))) by (unfold w; ring).
    eapply Rle_trans; [apply Rabs_triang|].
    assert (u64 * Rabs (fval fz + fval Yi) <= u64 * (101 / 100 * M)) by (apply Rmult_le_compat_l; lra).
    assert (E49 : powerRZ 2 (-49) = 16 * u64) by (rewrite U; rewrite <- (bpow_powerRZ Zaux.radix2); simpl; lra).
    rewrite E49. assert (0 < u64 * M) by (apply Rmult_lt_0_compat; lra). lra.
  Qed.
End Lin.

Lemma linear_interpolator64 (junk : f64) M : powerRZ 2 (-90) <= M <= powerRZ 2 90 ->
  interpolator64 (linear_coeffs_1 junk) linear_fun (powerRZ 2 (-900)) (powerRZ 2 900) M (powerRZ 2 (-49) * M).
Proof.
  intros HM X Y X' Y' xs ys HX HY HB H1 Hsp Hys.
  pose proof (blk_len _ _ _ _ _ _ HB) as Hl'.
  pose proof (holds_length _ _ HX) as LX. pose proof (holds_length _ _ HY) as LY.
  assert (Hl : length X = length Y) by congruence.
  assert (Hne : X <> []) by (intros ->; simpl in LX; lia).
  destruct (linear_interpolator NaN X' Y' xs ys HB H1) as (C' & g & _ & _ & Hrel & Hcont & Hin & _).
  destruct (linear_coeffs_1_spec junk X Y Hne Hl) as (C & EC & _ & Hc).
  exists C, g. split; [exact EC|]. split; [exact Hrel|]. split; [exact Hcont|]. split; [exact Hin|].
  intros x Fx Hx.
  assert (Hh : holds x (Fin (fval x))) by (split; [exact Fx|reflexivity]).
  destruct (in_piece_exists _ _ _ _ _ _ HB (fval x) ltac:(lia) Hx) as (i & Hi).
  pose proof (locate_piece _ _ _ _ _ _ HB _ _ Hi) as Eloc. rewrite <- (locate_nonan_same _ _ _ _ _ HB H1) in Eloc.
  rewrite <- (holds_locate_nonan _ _ _ _ HX Hh) in Eloc.
  pose proof (Hrel _ _ Hi) as Eg. destruct Hi as (_ & Hi & Hxi & _).
  assert (GX : forall j, (j < length X')%nat -> exists z, nth_error X j = Some z /\ finite64 z /\ fval z = xs j).
  { intros j Hj. destruct (holds_get X X' j (Fin (xs j)) HX) as (z & Ez & Fz & Vz).
    - apply (blk_X _ _ _ _ _ _ HB). lia.
    - exists z. auto. }
  assert (GY : forall j, (j < length X')%nat -> exists z, nth_error Y j = Some z /\ finite64 z /\ fval z = ys j).
  { intros j Hj. destruct (holds_get Y Y' j (Fin (ys j)) HY) as (z & Ez & Fz & Vz).
    - apply (blk_Y _ _ _ _ _ _ HB). lia.
    - exists z. auto. }
  destruct (GX i ltac:(lia)) as (Xi & EXi & FXi & VXi). destruct (GX (S i) Hi) as (Xj & EXj & FXj & VXj).
  destruct (GY i ltac:(lia)) as (Yi & EYi & FYi & VYi). destruct (GY (S i) Hi) as (Yj & EYj & FYj & VYj).
  specialize (Hc i ltac:(lia)). replace (i + 1)%nat with (S i) in Hc by lia.
  rewrite (nth_error_nth _ _ nan EXi), (nth_error_nth _ _ nan EXj), (nth_error_nth _ _ nan EYi), (nth_error_nth _ _ nan EYj) in Hc.
  exists (lin_y x Xi Xj Yi Yj). split.
  - unfold ppval_1_nonan. rewrite Eloc. cbn [bind]. rewrite (get_ok _ _ _ EXi). cbn [bind]. rewrite (get_ok _ _ _ Hc). reflexivity.
  - destruct (lin_round x Xi Xj Yi Yj M Fx FXi FXj FYi FYj HM) as [Fy By].
    + rewrite VXi, VXj. apply Hsp. exact Hi.
    + rewrite VXi, VXj. exact Hxi.
    + rewrite VYi. apply Hys. lia.
    + rewrite VYj. apply Hys. exact Hi.
    + split; [exact Fy|]. rewrite Eg. unfold secant. rewrite <- VXi, <- VXj, <- VYi, <- VYj. exact By.
Qed.
