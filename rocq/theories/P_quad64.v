(** * The trapezoidal rule in binary64 *)
From Coq Require Import ZArith Bool Reals Lra Lia Psatz List SpecFloat.
From Flocq Require Import Core BinarySingleNaN.
From Verif Require Import Num SF Res Arr ArrLemmas M_numpy M_label S_float P_float P_fl P_linear64 P_quad P_label.
Import ListNotations.
Local Open Scope R_scope.

#[local] Existing Instance P_float.prec_pos.
#[local] Existing Instance P_float.prec_max.

Lemma u_is : u64 = / 9007199254740992. Proof. reflexivity. Qed.
Lemma eta_small : eta64 <= powerRZ 2 (-1000). Proof. unfold eta64. apply pow2_le. lia. Qed.
Lemma le_big x n : x <= powerRZ 2 n -> (n <= 999)%Z -> x <= big64.
Proof. intros H K. eapply Rle_trans; [exact H|]. unfold big64. apply pow2_le. lia. Qed.

(** ** integers *)
Lemma of_nat_val n : INR n <= powerRZ 2 53 -> finite64 (of_nat n : f64) /\ fval (of_nat n : f64) = INR n.
Proof.
  intros H. change (of_nat n : f64) with (sf_lit (Z.of_nat n) 0). unfold sf_lit. cbn [Z.leb Z.compare]. change (10 ^ 0)%Z with 1%Z. rewrite Z.mul_1_r.
  assert (Hz : (Z.of_nat n <= 2 ^ 53)%Z).
  { apply le_IZR. rewrite <- INR_IZR_INZ. eapply Rle_trans; [exact H|]. simpl. lra. }
  unfold sf_of_Z. rewrite bn_equiv. generalize (binary_normalize_correct 53 1024 _ _ mode_NE (Z.of_nat n) 0 false). cbv zeta.
  assert (E : F2R (Float radix2 (Z.of_nat n) 0) = INR n) by (unfold F2R; cbn [Fnum Fexp bpow]; rewrite <- INR_IZR_INZ; ring).
  assert (G : rnd (INR n) = INR n).
  { apply round_generic; [apply valid_rnd_round_mode|]. change (SpecFloat.fexp 53 1024) with (FLT_exp (-1074) 53).
    destruct (Z.eq_dec (Z.of_nat n) (2 ^ 53)) as [E2|N2].
    - apply generic_format_FLT. exists (Float radix2 1 53).
      + rewrite <- E, E2. unfold F2R. cbn [Fnum Fexp]. simpl. lra.
      + cbn. lia.
      + cbn. lia.
    - apply generic_format_FLT. exists (Float radix2 (Z.of_nat n) 0); [symmetry; exact E| |cbn; lia].
      cbn [Fnum]. rewrite Z.abs_eq by lia. change (Zpower radix2 53) with (2 ^ 53)%Z. lia. }
  rewrite E, G, Rlt_bool_true.
  - intros (A & B & _). destruct (B_finite64 _ B) as [F V]. split; [exact F|]. rewrite V. exact A.
  - rewrite Rabs_pos_eq by apply pos_INR. eapply Rle_lt_trans; [exact H|]. rewrite <- (bpow_powerRZ radix2). apply bpow_lt. lia.
Qed.

Lemma ceil_val (x : f64) : finite64 x -> fval x <= IZR (ceilZ x) < fval x + 1.
Proof.
  intros F. change (ceilZ x) with (sf_ceilZ x). destruct x as [s|s| |s m e]; [cbn; lra|destruct F|destruct F|]. clear F.
  unfold sf_ceilZ. cbn [fval].
  assert (Ez : (if s then - IZR (Zpos m) else IZR (Zpos m)) = IZR (if s then Zneg m else Zpos m)) by (destruct s; reflexivity).
  rewrite Ez. set (z := if s then Zneg m else Zpos m). clearbody z. clear Ez.
  destruct (Z.leb_spec 0 e) as [L|L].
  - assert (E : powerRZ 2 e = IZR (2 ^ e)) by (rewrite <- (Z2Nat.id e L), <- pow_IZR, pow_powerRZ; reflexivity).
    rewrite E, <- mult_IZR. lra.
  - set (q := (2 ^ (- e))%Z). assert (Q : (0 < q)%Z) by (apply Z.pow_pos_nonneg; lia).
    assert (E : powerRZ 2 e = / IZR q).
    { unfold q. rewrite <- (Z2Nat.id (- e)) by lia. rewrite <- pow_IZR, pow_powerRZ, Z2Nat.id by lia. rewrite powerRZ_neg', Rinv_inv. reflexivity. }
    rewrite E. apply IZR_lt in Q as Q'. rewrite opp_IZR.
    pose proof (Z.div_mod (- z) q ltac:(lia)) as D. pose proof (Z.mod_pos_bound (- z) q Q) as [M1 M2].
    set (d := ((- z) / q)%Z) in *. set (r := ((- z) mod q)%Z) in *. apply (f_equal IZR) in D. rewrite plus_IZR, mult_IZR, opp_IZR in D.
    apply IZR_le in M1. apply IZR_lt in M2.
    assert (Z : IZR z * / IZR q = - IZR d - IZR r * / IZR q) by (apply Rmult_eq_reg_r with (IZR q); [field_simplify; lra|lra]).
    assert (0 <= IZR r * / IZR q) by (apply Rmult_le_pos; [lra|left; apply Rinv_0_lt_compat; lra]).
    assert (IZR r * / IZR q < 1) by (apply Rmult_lt_reg_r with (IZR q); [lra|rewrite Rmult_assoc, Rinv_l by lra; lra]). lra.
Qed.

(** ** sums *)
Definition rsum (l : list R) : R := fold_right Rplus 0 l.
Lemma fold_sum G : 0 <= G -> G <= big64 -> forall (l : list f64) (acc : f64), finite64 acc -> Forall finite64 l ->
  Rabs (fval acc) + rsum (map (fun t => Rabs (fval t)) l) + INR (length l) * (u64 * G + eta64) <= G ->
  finite64 (fold_left add l acc) /\ Rabs (fval (fold_left add l acc) - (fval acc + rsum (map fval l))) <= INR (length l) * (u64 * G + eta64).
Proof.
  intros G0 GB. pose proof u64_pos. pose proof eta64_pos.
  assert (D0 : 0 <= u64 * G + eta64) by (assert (0 <= u64 * G) by (apply Rmult_le_pos; lra); lra).
  assert (Pos : forall l : list f64, 0 <= rsum (map (fun t => Rabs (fval t)) l)).
  { intros l. unfold rsum. induction l as [|t l IH]; [cbn; lra|]. cbn [map fold_right]. pose proof (Rabs_pos (fval t)). lra. }
  induction l as [|t l IH]; intros acc Fa Fl H1.
  - cbn. split; [exact Fa|]. rewrite Rplus_0_r, Rminus_eq_0, Rabs_R0. lra.
  - inversion Fl as [|? ? Ft Fl' E1]; subst. cbn [fold_left]. cbn [map length] in *. rewrite S_INR in *.
    unfold rsum in *. cbn [fold_right] in *. specialize (Pos l). set (n := INR (length l)) in *. assert (N0 : 0 <= n) by apply pos_INR.
    set (d := u64 * G + eta64) in *. assert (ND : 0 <= n * d) by (apply Rmult_le_pos; lra).
    assert (A : Rabs (fval acc + fval t) <= G).
    { eapply Rle_trans; [apply Rabs_triang|]. lra. }
    destruct (sf_add_near acc t Fa Ft ltac:(lra)) as [F V]. change (sf_add acc t) with (add acc t) in *.
    assert (V' : Rabs (fval (add acc t) - (fval acc + fval t)) <= d).
    { eapply Rle_trans; [exact V|]. unfold d. apply Rplus_le_compat_r. apply Rmult_le_compat_l; lra. }
    destruct (IH (add acc t) F Fl') as [F2 V2].
    + pose proof (Rabs_triang (fval acc) (fval t)) as T1. pose proof (Rabs_triang (fval acc + fval t) (fval (add acc t) - (fval acc + fval t))) as T2.
      replace (fval acc + fval t + (fval (add acc t) - (fval acc + fval t))) with (fval (add acc t)) in T2 by ring. lra.
    + split; [exact F2|]. set (s := fold_right Rplus 0 (map fval l)) in *.
      replace (fval (fold_left add l (add acc t)) - (fval acc + (fval t + s)))
        with ((fval (fold_left add l (add acc t)) - (fval (add acc t) + s)) + (fval (add acc t) - (fval acc + fval t))) by ring.
      eapply Rle_trans; [apply Rabs_triang|]. lra.
Qed.

Lemma mul_close x y a b ea eb : Rabs (x - a) <= ea -> Rabs (y - b) <= eb -> Rabs (x * y - a * b) <= ea * (Rabs b + eb) + Rabs a * eb.
Proof.
  intros H1 H2. replace (x * y - a * b) with ((x - a) * y + a * (y - b)) by ring.
  eapply Rle_trans; [apply Rabs_triang|]. rewrite !Rabs_mult. apply Rplus_le_compat.
  - apply Rmult_le_compat; try apply Rabs_pos; [exact H1|]. replace y with (b + (y - b)) by ring. eapply Rle_trans; [apply Rabs_triang|]. lra.
  - apply Rmult_le_compat_l; [apply Rabs_pos|exact H2].
Qed.

(** ** one step of the rule *)
Section Step.
  Variables (x0 x1 y0 y1 : f64) (B : R).
  Hypotheses (F0 : finite64 x0) (F1 : finite64 x1) (G0 : finite64 y0) (G1 : finite64 y1).
  Hypothesis HB : powerRZ 2 (-900) <= B <= powerRZ 2 60.
  Hypotheses (B0 : Rabs (fval y0) <= B) (B1 : Rabs (fval y1) <= B).
  Hypothesis Hx : 0 <= fval x1 - fval x0 <= 10000.

  Lemma step64 : let t := mul (sub x1 x0) (div (add y1 y0) (lit 2 0)) : f64 in
    finite64 t /\ Rabs (fval t - (fval x1 - fval x0) * ((fval y1 + fval y0) / 2)) <= 42 / 10 * u64 * B * (fval x1 - fval x0) + powerRZ 2 (-1000).
  Proof.
    cbv zeta. set (D := fval x1 - fval x0) in *. set (c := (fval y1 + fval y0) / 2).
    pose proof u_is as U. assert (U0 := u64_pos). assert (E0 := eta64_pos).
    assert (P60 : powerRZ 2 60 = 1152921504606846976) by (simpl; lra).
    assert (Bp : 0 < B) by (pose proof (pow2_pos (-900)); lra).
    assert (Eu : eta64 <= / 1000 * (u64 * B)).
    { apply Rle_trans with (/ 1000 * (u64 * powerRZ 2 (-900))); [|apply Rmult_le_compat_l; [lra|]; apply Rmult_le_compat_l; lra].
      replace u64 with (powerRZ 2 (-53)) by (rewrite U; simpl; lra). rewrite pow2_mul. unfold eta64.
      apply Rle_trans with (powerRZ 2 (-10) * powerRZ 2 (-53 + -900)).
      - rewrite pow2_mul. apply pow2_le. lia.
      - apply Rmult_le_compat_r; [left; apply pow2_pos|]. simpl. lra. }
    assert (Uc : u64 * B <= B * / 1000000) by (rewrite Rmult_comm; apply Rmult_le_compat_l; lra).
    assert (big : forall z, z <= 10 ^ 30 -> z <= big64).
    { intros z Hz. apply (le_big _ 100); [|lia]. eapply Rle_trans; [exact Hz|]. simpl. lra. }
    apply Rabs_le_inv in B0. apply Rabs_le_inv in B1.
    assert (Hc : Rabs c <= B) by (apply Rabs_le; unfold c; lra).
    destruct (sf_sub_near x1 x0 F1 F0) as [Fd Vd]; [apply big; fold D; rewrite Rabs_pos_eq by lra; simpl; lra|]. fold D in Vd. rewrite (Rabs_pos_eq D) in Vd by lra.
    change (sf_sub x1 x0) with (sub x1 x0) in *. set (d := sub x1 x0 : f64) in *. clearbody d.
    destruct (sf_add_near y1 y0 G1 G0) as [Fs Vs]; [apply big; apply Rabs_le; simpl; lra|]. change (sf_add y1 y0) with (add y1 y0) in *. set (s := add y1 y0 : f64) in *. clearbody s.
    assert (As : Rabs (fval y1 + fval y0) <= 2 * B) by (apply Rabs_le; lra).
    assert (Vs' : Rabs (fval s - (fval y1 + fval y0)) <= 2001 / 1000 * (u64 * B)).
    { eapply Rle_trans; [exact Vs|]. assert (u64 * Rabs (fval y1 + fval y0) <= u64 * (2 * B)) by (apply Rmult_le_compat_l; lra). lra. }
    assert (Ls : Rabs (fval s) <= 2001 / 1000 * B).
    { replace (fval s) with ((fval s - (fval y1 + fval y0)) + (fval y1 + fval y0)) by ring. eapply Rle_trans; [apply Rabs_triang|]. lra. }
    destruct fl_two as [F2 V2]. set (two := lit 2 0 : f64) in *. clearbody two.
    destruct (sf_div_near s two Fs F2) as [Fh Vh]; [rewrite V2; lra|rewrite V2; unfold Rdiv; rewrite Rabs_mult, (Rabs_pos_eq (/ 2)) by lra; apply big; simpl; lra|].
    rewrite V2 in Vh. change (sf_div s two) with (div s two) in *. set (h := div s two : f64) in *. clearbody h.
    assert (Vh' : Rabs (fval h - c) <= 202 / 100 * (u64 * B)).
    { replace (fval h - c) with ((fval h - fval s / 2) + (fval s - (fval y1 + fval y0)) / 2) by (unfold c; field).
      eapply Rle_trans; [apply Rabs_triang|]. unfold Rdiv at 2. rewrite Rabs_mult, (Rabs_pos_eq (/ 2)) by lra.
      unfold Rdiv in Vh at 2. rewrite Rabs_mult, (Rabs_pos_eq (/ 2)) in Vh by lra.
      assert (u64 * (Rabs (fval s) * / 2) <= u64 * (2001 / 2000 * B)) by (apply Rmult_le_compat_l; lra). lra. }
    pose proof (mul_close _ _ _ _ _ _ Vd Vh') as M. rewrite (Rabs_pos_eq D) in M by lra.
    assert (K1 : (u64 * D + eta64) * (Rabs c + 202 / 100 * (u64 * B)) <= (u64 * D + eta64) * (1001 / 1000 * B)).
    { apply Rmult_le_compat_l; [|lra]. assert (0 <= u64 * D) by (apply Rmult_le_pos; lra). lra. }
    assert (UBD0 : 0 <= u64 * B * D) by (apply Rmult_le_pos; [apply Rmult_le_pos; lra|lra]).
    assert (M' : Rabs (fval d * fval h - D * c) <= 31 / 10 * (u64 * B * D) + 1001 / 1000 * (eta64 * B)) by lra.
    assert (DB : 0 <= B * D <= 10000 * B) by (split; [apply Rmult_le_pos; lra|rewrite (Rmult_comm B); apply Rmult_le_compat_r; lra]).
    assert (EB : eta64 * B <= eta64 * powerRZ 2 60) by (apply Rmult_le_compat_l; lra).
    assert (EB0 : 0 <= eta64 * B) by (apply Rmult_le_pos; lra).
    assert (E1 : eta64 * powerRZ 2 60 = powerRZ 2 (-1015)) by (unfold eta64; apply pow2_mul).
    assert (E2 : powerRZ 2 (-1015) <= / 1000 * powerRZ 2 (-1000)).
    { replace (-1015)%Z with (-15 + -1000)%Z by lia. rewrite <- pow2_mul. apply Rmult_le_compat_r; [left; apply pow2_pos|]. simpl. lra. }
    assert (E3 : eta64 <= powerRZ 2 (-1015)) by (unfold eta64; apply pow2_le; lia).
    assert (E4 : powerRZ 2 (-1000) <= 1) by (replace 1 with (powerRZ 2 0) by reflexivity; apply pow2_le; lia).
    assert (Dc : Rabs (D * c) <= B * D) by (rewrite Rabs_mult, (Rabs_pos_eq D), (Rmult_comm B) by lra; apply Rmult_le_compat_l; lra).
    assert (UBD : u64 * B * D <= / 1000000 * (B * D)) by (rewrite Rmult_assoc; apply Rmult_le_compat_r; lra).
    assert (L : Rabs (fval d * fval h) <= 1001 / 1000 * (B * D) + powerRZ 2 (-1000)).
    { replace (fval d * fval h) with ((fval d * fval h - D * c) + D * c) by ring. eapply Rle_trans; [apply Rabs_triang|]. lra. }
    destruct (sf_mul_near d h Fd Fh) as [Ft Vt]; [apply big; simpl; lra|]. change (sf_mul d h) with (mul d h) in *.
    split; [exact Ft|]. replace (fval (mul d h) - D * c) with ((fval (mul d h) - fval d * fval h) + (fval d * fval h - D * c)) by ring.
    eapply Rle_trans; [apply Rabs_triang|].
    assert (u64 * Rabs (fval d * fval h) <= u64 * (1001 / 1000 * (B * D) + powerRZ 2 (-1000))) by (apply Rmult_le_compat_l; lra).
    assert (u64 * powerRZ 2 (-1000) <= / 1000 * powerRZ 2 (-1000)) by (apply Rmult_le_compat_r; [left; apply pow2_pos|lra]). lra.
  Qed.
End Step.

(** ** the whole rule *)
Section Rule.
  Variables (Y : R -> R) (e B H : R).
  Hypothesis HB : powerRZ 2 (-900) <= B <= powerRZ 2 60.
  Hypothesis He : 0 <= e.
  Hypothesis HH : / 1000 <= H <= 10000.
  Definition good (x y : f64) : Prop := finite64 x /\ finite64 y /\ Rabs (fval y - Y (fval x)) <= e /\ Rabs (fval y) <= B.

  Lemma terms64 dp : forall xs ys, Forall2 good xs ys -> chain dp (map fval xs) -> dp <= 10000 -> forall d,
    let l := last (map fval xs) d - hd d (map fval xs) in let n := INR (length (trapz_terms ys xs)) in
    0 <= l /\ (length (trapz_terms ys xs) <= length xs - 1)%nat
    /\ Forall finite64 (trapz_terms ys xs)
    /\ Rabs (rsum (map fval (trapz_terms ys xs)) - tlist Y (map fval xs)) <= l * (e + 42 / 10 * u64 * B) + n * powerRZ 2 (-1000)
    /\ rsum (map (fun t => Rabs (fval t)) (trapz_terms ys xs)) <= l * (B + 42 / 10 * u64 * B) + n * powerRZ 2 (-1000).
  Proof.
    intros xs ys Hg Hc Hdp d. induction Hg as [|x0 y0 xs ys G0 Hg IH].
    - cbn. rewrite !Rminus_eq_0, Rabs_R0. repeat split; try lra; try lia. constructor.
    - destruct Hg as [|x1 y1 xs ys G1 Hg].
      + cbn. rewrite !Rminus_eq_0, Rabs_R0. repeat split; try lra; try lia. constructor.
      + cbn [map] in Hc. destruct Hc as [[Hc1 Hc2] Hc']. specialize (IH Hc').
        set (xs1 := x1 :: xs) in *. set (ys1 := y1 :: ys) in *. cbv zeta in IH.
        change (trapz_terms (y0 :: ys1) (x0 :: xs1)) with (mul (sub x1 x0) (div (add y1 y0) (lit 2 0)) :: trapz_terms ys1 xs1 : list f64).
        change (tlist Y (map fval (x0 :: xs1))) with ((fval x1 - fval x0) * ((Y (fval x1) + Y (fval x0)) / 2) + tlist Y (map fval xs1)).
        change (last (map fval (x0 :: xs1)) d) with (last (map fval xs1) d).
        change (hd d (map fval (x0 :: xs1))) with (fval x0). change (hd d (map fval xs1)) with (fval x1) in IH.
        destruct IH as (I1 & I2 & I3 & I4 & I5). destruct G0 as (Fx0 & Fy0 & A0 & B0). destruct G1 as (Fx1 & Fy1 & A1 & B1).
        destruct (step64 x0 x1 y0 y1 B Fx0 Fx1 Fy0 Fy1 HB B0 B1 ltac:(lra)) as [Ft Vt]. set (t := mul (sub x1 x0) (div (add y1 y0) (lit 2 0)) : f64) in *. clearbody t.
        set (D := fval x1 - fval x0) in *. set (L := last (map fval xs1) d) in *. cbv zeta. cbn [length map]. rewrite S_INR. set (n := INR (length (trapz_terms ys1 xs1))) in *.
        set (q := 42 / 10 * u64 * B) in *. set (dl := powerRZ 2 (-1000)) in *.
        split; [unfold D in *; lra|]. split; [unfold xs1 in *; cbn [length] in *; lia|]. split; [constructor; assumption|]. unfold rsum in *. cbn [fold_right].
        set (S1 := fold_right Rplus 0 (map fval (trapz_terms ys1 xs1))) in *. set (T1 := tlist Y (map fval xs1)) in *.
        set (S2 := fold_right Rplus 0 (map (fun t => Rabs (fval t)) (trapz_terms ys1 xs1))) in *.
        assert (C1 : Rabs ((fval y1 + fval y0) / 2 - (Y (fval x1) + Y (fval x0)) / 2) <= e).
        { replace (_ - _) with (/ 2 * ((fval y1 - Y (fval x1)) + (fval y0 - Y (fval x0)))) by field. rewrite Rabs_mult, (Rabs_pos_eq (/ 2)) by lra.
          pose proof (Rabs_triang (fval y1 - Y (fval x1)) (fval y0 - Y (fval x0))). lra. }
        assert (C2 : Rabs ((fval y1 + fval y0) / 2) <= B).
        { apply Rabs_le_inv in B0. apply Rabs_le_inv in B1. apply Rabs_le. lra. }
        assert (Dc : Rabs (D * ((fval y1 + fval y0) / 2)) <= D * B) by (rewrite Rabs_mult, (Rabs_pos_eq D) by lra; apply Rmult_le_compat_l; lra).
        split.
        * replace (_ - _) with ((fval t - D * ((fval y1 + fval y0) / 2)) + (D * ((fval y1 + fval y0) / 2 - (Y (fval x1) + Y (fval x0)) / 2) + (S1 - T1))) by ring.
          eapply Rle_trans; [apply Rabs_triang|]. eapply Rle_trans; [apply Rplus_le_compat_l; apply Rabs_triang|].
          rewrite (Rabs_mult D), (Rabs_pos_eq D) by lra.
          assert (D * Rabs ((fval y1 + fval y0) / 2 - (Y (fval x1) + Y (fval x0)) / 2) <= D * e) by (apply Rmult_le_compat_l; lra).
          replace ((L - fval x0) * (e + q) + (n + 1) * dl) with (D * e + (q * D + dl) + ((L - fval x1) * (e + q) + n * dl)) by (unfold D; ring). lra.
        * assert (Rabs (fval t) <= q * D + dl + D * B).
          { replace (fval t) with ((fval t - D * ((fval y1 + fval y0) / 2)) + D * ((fval y1 + fval y0) / 2)) by ring. eapply Rle_trans; [apply Rabs_triang|]. lra. }
          replace ((L - fval x0) * (B + q) + (n + 1) * dl) with (q * D + dl + D * B + ((L - fval x1) * (B + q) + n * dl)) by (unfold D; ring). lra.
  Qed.

  Lemma trapz64 dp xs ys m d : Forall2 good xs ys -> chain dp (map fval xs) -> dp <= 10000 -> length xs = S m -> INR m <= powerRZ 2 40 ->
    let l := last (map fval xs) d - hd d (map fval xs) in l <= H ->
    finite64 (trapz ys xs) /\ Rabs (fval (trapz ys xs)) <= 12 / 10 * H * B
    /\ Rabs (fval (trapz ys xs) - tlist Y (map fval xs)) <= l * e + H * B * u64 * (5 + 12 / 10 * INR m).
  Proof.
    intros Hg Hc Hdp Hlen Hm l Hl. destruct (terms64 dp xs ys Hg Hc Hdp d) as (L0 & N & Ft & T1 & T2). fold l in L0, T1, T2.
    rewrite Hlen in N. replace (S m - 1)%nat with m in N by lia. apply le_INR in N. set (ts := trapz_terms ys xs) in *. set (n := INR (length ts)) in *.
    assert (N0 : 0 <= n) by apply pos_INR. pose proof u_is as U. assert (U0 := u64_pos). assert (E0 := eta64_pos). assert (Es := eta_small).
    assert (Bp : 0 < B) by (pose proof (pow2_pos (-900)); lra).
    assert (HBp : 0 < H * B) by (apply Rmult_lt_0_compat; lra).
    assert (P40 : powerRZ 2 40 = 1099511627776) by (simpl; lra).
    (* dust *)
    assert (D1 : powerRZ 2 (-1000) <= / 1000000 * (u64 * (H * B))).
    { apply Rle_trans with (/ 1000000 * (u64 * (/ 1000 * powerRZ 2 (-900)))).
      - replace u64 with (powerRZ 2 (-53)) by (rewrite U; simpl; lra).
        replace (/ 1000000 * (powerRZ 2 (-53) * (/ 1000 * powerRZ 2 (-900)))) with (/ 1000000000 * (powerRZ 2 (-53) * powerRZ 2 (-900))) by field.
        rewrite pow2_mul. replace (-1000)%Z with (-47 + (-53 + -900))%Z by lia. rewrite <- (pow2_mul (-47)).
        apply Rmult_le_compat_r; [left; apply pow2_pos|]. simpl. lra.
      - apply Rmult_le_compat_l; [lra|]. apply Rmult_le_compat_l; [lra|]. apply Rmult_le_compat; try lra. left; apply pow2_pos. }
    set (z := u64 * (H * B)) in *. assert (Z0 : 0 < z) by (apply Rmult_lt_0_compat; lra).
    assert (Zs : z * powerRZ 2 40 <= / 1000 * (H * B)).
    { unfold z. rewrite P40. replace (u64 * (H * B) * 1099511627776) with (u64 * 1099511627776 * (H * B)) by ring. apply Rmult_le_compat_r; lra. }
    assert (D2 : n * powerRZ 2 (-1000) <= n * (/ 1000000 * z)) by (apply Rmult_le_compat_l; lra).
    assert (NM : n * z <= INR m * z) by (apply Rmult_le_compat_r; lra).
    assert (MZ : INR m * z <= / 1000 * (H * B)) by (apply Rle_trans with (powerRZ 2 40 * z); [apply Rmult_le_compat_r; lra|lra]).
    assert (NZ : 0 <= n * z) by (apply Rmult_le_pos; lra).
    assert (LH : l * B <= H * B) by (apply Rmult_le_compat_r; lra).
    assert (LZ : l * (42 / 10 * u64 * B) <= 42 / 10 * z).
    { replace (42 / 10 * z) with (42 / 10 * u64 * (H * B)) by (unfold z; ring). replace (l * (42 / 10 * u64 * B)) with (42 / 10 * u64 * (l * B)) by ring. apply Rmult_le_compat_l; lra. }
    assert (zs : z <= / 1000000 * (H * B)) by (unfold z; apply Rmult_le_compat_r; lra).
    set (G := 11 / 10 * (H * B)).
    assert (UG : n * (u64 * G + eta64) <= 111 / 100 * (n * z)).
    { replace (u64 * G) with (11 / 10 * z) by (unfold G, z; ring). apply Rle_trans with (n * (111 / 100 * z)); [apply Rmult_le_compat_l; lra|lra]. }
    assert (HBb : H * B <= 10000 * powerRZ 2 60) by (apply Rmult_le_compat; lra).
    assert (P60 : powerRZ 2 60 = 1152921504606846976) by (simpl; lra).
    destruct fl_zero as [Fz Vz].
    destruct (fold_sum G ltac:(unfold G; lra)) with (l := ts) (acc := (lit 0 0 : f64)) as [F V].
    - apply (le_big _ 100); [|lia]. apply Rle_trans with (10 ^ 30); [unfold G; simpl; lra|simpl; lra].
    - exact Fz.
    - exact Ft.
    - rewrite Vz, Rabs_R0. fold n. replace (l * (B + 42 / 10 * u64 * B)) with (l * B + l * (42 / 10 * u64 * B)) in T2 by ring. unfold G in *. lra.
    - rewrite Vz in V. fold n in V. change (fold_left add ts (lit 0 0)) with (trapz ys xs) in *. rewrite Rplus_0_l in V.
      split; [exact F|]. split.
      + assert (S1 : Rabs (rsum (map fval ts)) <= rsum (map (fun t => Rabs (fval t)) ts)).
        { clear. unfold rsum. induction ts as [|t l IH]; cbn; [rewrite Rabs_R0; lra|]. eapply Rle_trans; [apply Rabs_triang|]. lra. }
        replace (fval (trapz ys xs)) with ((fval (trapz ys xs) - rsum (map fval ts)) + rsum (map fval ts)) by ring.
        eapply Rle_trans; [apply Rabs_triang|]. replace (l * (B + 42 / 10 * u64 * B)) with (l * B + l * (42 / 10 * u64 * B)) in T2 by ring. lra.
      + replace (_ - _) with ((fval (trapz ys xs) - rsum (map fval ts)) + (rsum (map fval ts) - tlist Y (map fval xs))) by ring.
        eapply Rle_trans; [apply Rabs_triang|]. replace (l * (e + 42 / 10 * u64 * B)) with (l * e + l * (42 / 10 * u64 * B)) in T1 by ring.
        replace (H * B * u64 * (5 + 12 / 10 * INR m)) with (5 * z + 12 / 10 * (INR m * z)) by (unfold z; ring). lra.
  Qed.
End Rule.
