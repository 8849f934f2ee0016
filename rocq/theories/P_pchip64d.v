(** * PCHIP interpolation in binary64 *)
From Coq Require Import ZArith Reals List SpecFloat Lia Lra Psatz Bool.
From Flocq Require Import Core.Raux.
From Verif Require Import Num XR SF Res Arr ArrLemmas XRlemmas M_numpy M_ppinterp S_float P_float P_fl S_interp S_domain S_traj S_vert64
  P_holds P_ppinterp P_pval P_interp P_coeffs P_interp2 P_traj P_brent64 P_linear64 P_pchip P_pchip64 P_pchip64b P_pchip64c.
Import ListNotations.
Local Open Scope R_scope.

Lemma pval_cubic {F} {N : Num F} (s a b c y : F) :
  pval s [a; b; c; y] 0 = add (mul (add (mul (add (mul (add (mul (lit 0 0) s) a) s) b) s) c) s) y.
Proof. reflexivity. Qed.

Lemma piece_pval (fh fs fdl fd0 fd1 fy : f64) :
  pval fs [div (sub (div (sub fd1 fdl) fh) (div (sub fdl fd0) fh)) fh; sub (mul (lit 2 0) (div (sub fdl fd0) fh)) (div (sub fd1 fdl) fh); fd0; fy] 0
  = piece_y fh fs fdl fd0 fd1 fy.
Proof. rewrite pval_cubic. reflexivity. Qed.

(** ** Coefficients exist when the slopes do, in any arithmetic *)
Section Gen.
  Context {F : Type} {N : Num F}.
  Variables (X Y : list F) (n : nat).
  Hypothesis (HX : length X = n) (HY : length Y = n).
  Hypothesis Hh : forall i, (i + 1 < n)%nat -> eqb (hx X i) zero = false.
  Hypothesis Hs : (2 < n)%nat -> forall j, (j < n)%nat -> exists v, gslope X Y 0 n j = Ok v.

  Let v j : F := match gslope X Y 0 n j with Ok v => v | Err _ => nan end.
  Lemma v_ok j : (2 < n)%nat -> (j < n)%nat -> gslope X Y 0 n j = Ok (v j).
  Proof. intros H2 Hj. unfold v. destruct (Hs H2 j Hj) as (w & ->). reflexivity. Qed.

  Lemma grow_inv i c3 c2 c1 v0 v1 : eqb (hx X i) zero = false -> gslope X Y 0 n i = Ok v0 -> gslope X Y 0 n (i + 1) = Ok v1 ->
    grow X Y 0 n i = Ok (c3, c2, c1) ->
    c3 = div (sub (div (sub v1 (dl X Y i)) (hx X i)) (div (sub (dl X Y i) v0) (hx X i))) (hx X i)
    /\ c2 = sub (mul (lit 2 0) (div (sub (dl X Y i) v0) (hx X i))) (div (sub v1 (dl X Y i)) (hx X i)) /\ c1 = v0.
  Proof.
    intros Nz E0 E1 Eg. unfold grow in Eg. rewrite E0, E1 in Eg. cbn [bind] in Eg. unfold pchip_piece in Eg.
    do 3 (rewrite ?P_coeffs.sdiv_ok in Eg by exact Nz; cbn [bind] in Eg). injection Eg as <- <- <-. auto.
  Qed.

  Lemma pchip_exists junk : (1 < n)%nat -> exists C, pchip_coeffs_1_nonan junk X Y = Ok C.
  Proof.
    intros Hn. unfold pchip_coeffs_1_nonan, pchip_coeffs_kK. rewrite HX.
    assert (HneX : X <> []) by (intros ->; simpl in HX; lia).
    assert (HneY : Y <> []) by (intros ->; simpl in HY; lia).
    destruct (diff_1d_samesize_spec junk X HneX) as (h & Eh & Lh & _).
    destruct (diff_1d_samesize_spec junk Y HneY) as (dY & EdY & LdY & _).
    rewrite Eh, EdY. cbn [bind]. set (δ := map (fun '(dy, hi) => div dy hi) (combine dY h)) in *.
    assert (G : forall i, (i + 1 < n)%nat -> get h i = Ok (hx X i) /\ get δ i = Ok (dl X Y i)).
    { intros i Hi. destruct (get_diff junk X i ltac:(lia) h Eh) as [G1 _]. destruct (get_diff junk Y i ltac:(lia) dY EdY) as [G2 _].
      split; [exact G1|]. apply get_ok. unfold δ. rewrite nth_error_map, nth_error_combine, (get_inv _ _ _ G1), (get_inv _ _ _ G2). reflexivity. }
    rewrite Nat.sub_0_r. destruct (Nat.ltb_spec 2 n) as [H2|H2].
    - assert (Es : exists d, pchip_slopes h δ 0 n = Ok d /\ forall j, (j < n)%nat -> nth_error d j = Some (v j)).
      { unfold pchip_slopes. rewrite !(proj1 (G 0%nat ltac:(lia))), !(proj2 (G 0%nat ltac:(lia))).
        rewrite !(proj1 (G (0 + 1)%nat ltac:(lia))), !(proj2 (G (0 + 1)%nat ltac:(lia))). cbn [bind].
        pose proof (v_ok 0 H2 ltac:(lia)) as V0. unfold gslope in V0. rewrite Nat.eqb_refl in V0. rewrite V0. cbn [bind].
        rewrite set_ok by (rewrite repeat_length; lia). cbn [bind].
        match goal with |- context [for_range ?a ?b ?body ?d] => destruct (for_range_fill body v a b d) as (d1 & E1 & L1 & Hin & Hout) end.
        { lia. } { rewrite length_upd, repeat_length. lia. }
        { intros i e Hi _. rewrite !(proj1 (G i ltac:(lia))), !(proj2 (G i ltac:(lia))), !(proj1 (G (i - 1)%nat ltac:(lia))), !(proj2 (G (i - 1)%nat ltac:(lia))).
          cbn [bind]. pose proof (v_ok i H2 ltac:(lia)) as Vi. unfold gslope in Vi.
          destruct (Nat.eqb_spec i 0); [lia|]. destruct (Nat.eqb_spec i (n - 1)); [lia|]. rewrite Vi. reflexivity. }
        rewrite E1. cbn [bind].
        rewrite !(proj1 (G (n - 2)%nat ltac:(lia))), !(proj2 (G (n - 2)%nat ltac:(lia))), !(proj1 (G (n - 3)%nat ltac:(lia))), !(proj2 (G (n - 3)%nat ltac:(lia))).
        cbn [bind]. pose proof (v_ok (n - 1) H2 ltac:(lia)) as Vn. unfold gslope in Vn. destruct (Nat.eqb_spec (n - 1) 0); [lia|].
        rewrite Nat.eqb_refl in Vn. rewrite Vn. cbn [bind]. rewrite length_upd, repeat_length in L1. rewrite set_ok by lia.
        eexists. split; [reflexivity|]. intros j Hj. destruct (Nat.eq_dec j (n - 1)) as [->|Nj].
        - apply nth_error_upd_eq. lia.
        - rewrite nth_error_upd_neq by lia. destruct (Nat.eq_dec j 0) as [->|N0].
          + rewrite Hout by lia. apply nth_error_upd_eq. rewrite repeat_length. lia.
          + apply Hin. lia. }
      destruct Es as (d & Ed & Hd). rewrite Ed. cbn [bind].
      match goal with |- context [for_range ?a ?b ?body ?d] => destruct (for_range_fill body
        (fun i => match pchip_piece (hx X i) (dl X Y i) (v i) (v (i + 1)%nat) with Ok c => c | Err _ => (nan, nan, nan) end) a b d) as (d1 & E1 & _ & _) end.
      { lia. } { rewrite repeat_length. lia. }
      { intros i e Hi _. rewrite (proj1 (G i ltac:(lia))), (proj2 (G i ltac:(lia))). rewrite (get_ok _ _ _ (Hd i ltac:(lia))), (get_ok _ _ _ (Hd (i + 1)%nat ltac:(lia))).
        cbn [bind]. unfold pchip_piece. do 3 (rewrite ?P_coeffs.sdiv_ok by (apply Hh; lia); cbn [bind]). reflexivity. }
      rewrite E1. cbn [bind]. eexists. reflexivity.
    - assert (n = 2%nat) by lia. destruct (Nat.eqb_spec n 2) as [_|Nn]; [|contradiction].
      rewrite !(get_nth X _ nan), !(get_nth Y _ nan) by lia. cbn [bind].
      pose proof (Hh 0%nat ltac:(lia)) as H0. unfold hx in H0. rewrite P_coeffs.sdiv_ok by exact H0. cbn [bind].
      rewrite set_ok by (rewrite repeat_length; lia). cbn [bind]. eexists. reflexivity.
  Qed.
End Gen.

Lemma zero_poly (s : f64) : finite64 s -> add (mul (lit 0 0) s) (lit 0 0) = (lit 0 0 : f64).
Proof. destruct s as [b| | |b m e]; intros H; try contradiction H; destruct b; reflexivity. Qed.

(** ** The interpolator *)
Section Interp.
  Variables (junk : f64) (X Y : list f64) (X' Y' : list xr) (xs ys : nat -> R) (M : R).
  Hypothesis HX : holds_all X X'.
  Hypothesis HY : holds_all Y Y'.
  Hypothesis HB : block X' Y' 0 (length X') xs ys.
  Hypothesis H1 : (1 < length X')%nat.
  Hypothesis Hsp : spaced (length X') xs (powerRZ 2 (-60)) (powerRZ 2 60).
  Hypothesis Hys : forall i, (i < length X')%nat -> Rabs (ys i) <= M.
  Hypothesis HM : powerRZ 2 (-90) <= M <= powerRZ 2 90.

  Let n := length X'.
  Let slp := pchip_slope 0 n xs ys.
  Let sec := secant xs ys.

  Lemma getX j : (j < n)%nat -> exists z, nth_error X j = Some z /\ finite64 z /\ fval z = xs j.
  Proof.
    intros Hj. destruct (holds_get X X' j (Fin (xs j)) HX) as (z & Ez & Fz & Vz).
    - apply (blk_X _ _ _ _ _ _ HB). lia.
    - exists z. auto.
  Qed.
  Lemma getY j : (j < n)%nat -> exists z, nth_error Y j = Some z /\ finite64 z /\ fval z = ys j.
  Proof.
    intros Hj. destruct (holds_get Y Y' j (Fin (ys j)) HY) as (z & Ez & Fz & Vz).
    - apply (blk_Y _ _ _ _ _ _ HB). lia.
    - exists z. auto.
  Qed.

  Lemma secants i : (i + 1 < n)%nat -> secant64 (width xs i) (sec i) (hx X i) (dl X Y i).
  Proof.
    intros Hi. destruct (getX i ltac:(lia)) as (Xi & EXi & FXi & VXi). destruct (getX (i + 1) Hi) as (Xj & EXj & FXj & VXj).
    destruct (getY i ltac:(lia)) as (Yi & EYi & FYi & VYi). destruct (getY (i + 1) Hi) as (Yj & EYj & FYj & VYj).
    unfold dl, hx. rewrite (nth_error_nth _ _ nan EXi), (nth_error_nth _ _ nan EXj), (nth_error_nth _ _ nan EYi), (nth_error_nth _ _ nan EYj).
    unfold width, sec, secant. replace (S i) with (i + 1)%nat by lia. rewrite <- VXi, <- VXj, <- VYi, <- VYj.
    apply (secant_round Xi Xj Yi Yj M); try assumption; [rewrite VXi, VXj; replace (i + 1)%nat with (S i) by lia; apply Hsp; unfold n in Hi; lia
      |rewrite VYi; apply Hys; unfold n in Hi; lia|rewrite VYj; apply Hys; exact Hi|apply HM].
  Qed.

  Lemma hx_nz i : (i + 1 < n)%nat -> eqb (hx X i) (zero : f64) = false.
  Proof.
    intros Hi. pose proof (secants i Hi) as S. destruct (s_fh _ _ _ _ S) as [Fh (e & E & B)]. pose proof (small_r _ _ B ltac:(lra)) as Se.
    pose proof (s_hpos _ _ _ _ S) as P. assert (Ev : fval (hx X i) <> 0) by (rewrite E; apply Rmult_integral_contrapositive_currified; lra).
    pose proof (sdiv64 (hx X i) (hx X i) Fh Ev) as Sd. unfold sdiv in Sd. destruct (eqb (hx X i) zero); [discriminate Sd|reflexivity].
  Qed.

  Lemma slopes : (2 < n)%nat -> forall j, (j < n)%nat -> exists fd, gslope X Y 0 n j = Ok fd
    /\ ((j + 1 < n)%nat -> slope64 fd (slp j) (sec j)) /\ ((0 < j)%nat -> slope64 fd (slp j) (sec (j - 1)%nat)).
  Proof.
    intros H2 j Hj. unfold gslope, slp, pchip_slope. destruct (Nat.eqb_spec (n - 0) 2) as [E2|N2]; [lia|].
    destruct (Nat.eqb_spec j 0) as [->|Nj].
    - destruct (end_round _ _ _ _ _ _ _ _ (secants 0 ltac:(lia)) (secants (0 + 1) ltac:(lia))) as (fd & Efd & Sfd).
      exists fd. split; [exact Efd|]. split; [intros _; exact Sfd|lia].
    - destruct (Nat.eqb_spec j (n - 1)) as [Ej|Nj'].
      + destruct (end_round _ _ _ _ _ _ _ _ (secants (n - 2) ltac:(lia)) (secants (n - 3) ltac:(lia))) as (fd & Efd & Sfd).
        exists fd. split; [exact Efd|]. split; [lia|]. intros _. replace (j - 1)%nat with (n - 2)%nat by lia. exact Sfd.
      + destruct (mid_round _ _ _ _ _ _ _ _ (secants (j - 1) ltac:(lia)) (secants j ltac:(lia))) as (fd & Efd & Sa & Sb).
        exists fd. split; [exact Efd|]. split; [intros _; exact Sb|intros _; exact Sa].
  Qed.

  Lemma T_small h : 0 < h <= powerRZ 2 60 -> 30 * T64 * h <= u64 * powerRZ 2 (-500).
  Proof.
    intros [P Q]. apply Rle_trans with (powerRZ 2 5 * T64 * powerRZ 2 60).
    - apply Rmult_le_compat; try lra.
      + pose proof T64_pos. lra.
      + apply Rmult_le_compat_r; [left; apply T64_pos|]. simpl. lra.
    - unfold T64. rewrite !pow2_mul. replace u64 with (powerRZ 2 (-53)) by (unfold u64; simpl; lra). rewrite pow2_mul. apply pow2_le. lia.
  Qed.

  Lemma slope_sc fd d dl0 h p a k : slope64 fd d dl0 -> rng (-60) 60 h -> 0 < h -> dl0 * h = p -> d * h = a * p -> 60 <= k ->
    sc (Rabs p + powerRZ 2 (-500)) h k 1 fd (a * p).
  Proof.
    intros [Ff Bf] [_ Rh] Ph Ep Ea Hk. split; [exact Ff|]. rewrite pow_1, <- Ea.
    replace (fval fd * h - d * h) with ((fval fd - d) * h) by ring. rewrite Rabs_pos_eq in Rh by lra.
    rewrite Rabs_mult, (Rabs_pos_eq h) by lra. pose proof (T_small h (conj Ph Rh)).
    apply Rle_trans with ((59 * (u64 * Rabs dl0) + 30 * T64) * h); [apply Rmult_le_compat_r; lra|].
    assert (E : Rabs dl0 * h = Rabs p) by (rewrite <- Ep, Rabs_mult, (Rabs_pos_eq h) by lra; reflexivity).
    replace ((59 * (u64 * Rabs dl0) + 30 * T64) * h) with (59 * (u64 * (Rabs dl0 * h)) + 30 * T64 * h) by ring. rewrite E.
    pose proof (Rmult_le_pos _ _ (Rlt_le _ _ u64_pos) (Rabs_pos p)). pose proof (Rmult_lt_0_compat _ _ u64_pos (pow2_pos (-500))).
    apply Rle_trans with (60 * (u64 * (Rabs p + powerRZ 2 (-500)))); [lra|]. apply Rmult_le_compat_r; lra.
  Qed.
  Lemma secant_sc fh fdl dl0 h p : secant64 h dl0 fh fdl -> dl0 * h = p -> sc (Rabs p + powerRZ 2 (-500)) h 4 1 fdl p.
  Proof.
    intros S Ep. pose proof (s_hpos _ _ _ _ S) as Ph. destruct (s_h _ _ _ _ S) as [_ Rh]. rewrite Rabs_pos_eq in Rh by lra.
    pose proof (T_small h (conj Ph Rh)) as Ts. split; [apply S|]. rewrite pow_1.
    assert (E : Rabs dl0 * h = Rabs p) by (rewrite <- Ep, Rabs_mult, (Rabs_pos_eq h) by lra; reflexivity).
    rewrite <- Ep at 1. replace (fval fdl * h - dl0 * h) with ((fval fdl - dl0) * h) by ring. rewrite Rabs_mult, (Rabs_pos_eq h) by lra.
    pose proof (Rmult_le_pos _ _ (Rlt_le _ _ u64_pos) (Rabs_pos dl0)) as Q. pose proof T64_pos as tp.
    assert (Bf : Rabs (fval fdl - dl0) <= 304 / 100 * (u64 * Rabs dl0) + 3 * T64).
    { destruct (s_or _ _ _ _ S) as [[_ [_ (e & Ee & B)]]|[L R]].
      - rewrite Ee. replace (dl0 * (1 + e) - dl0) with (dl0 * e) by ring. rewrite Rabs_mult.
        apply Rle_trans with (Rabs dl0 * (304 / 100 * u64)); [apply Rmult_le_compat_l; [apply Rabs_pos|exact B]|lra].
      - unfold Rminus. eapply Rle_trans; [apply Rabs_triang|]. rewrite Rabs_Ropp. lra. }
    apply Rle_trans with ((304 / 100 * (u64 * Rabs dl0) + 3 * T64) * h); [apply Rmult_le_compat_r; lra|].
    replace ((304 / 100 * (u64 * Rabs dl0) + 3 * T64) * h) with (304 / 100 * (u64 * (Rabs dl0 * h)) + 30 * T64 * h / 10) by field. rewrite E.
    pose proof (Rmult_le_pos _ _ (Rlt_le _ _ u64_pos) (Rabs_pos p)). pose proof (Rmult_lt_0_compat _ _ u64_pos (pow2_pos (-500))). lra.
  Qed.

  Lemma piece_value (g : R -> R) (x : f64) i : pchip_fun n xs ys g -> S_traj.within n xs ys g -> finite64 x -> in_piece 0 n xs (fval x) i -> (2 < n)%nat ->
    forall c3 c2 c1 Xi, grow X Y 0 n i = Ok (c3, c2, c1) -> nth_error X i = Some Xi ->
    S_float.within (pval (sub x Xi) [c3; c2; c1; nth i Y nan] 0) (g (fval x)) (204 * (u64 * M)).
  Proof.
    intros Hg Hin Fx Hi H2 c3 c2 c1 Xi Eg EXi.
    pose proof (Hg _ _ Hi) as Egx. cbv zeta in Egx. destruct Hi as (_ & Hi & Hxi & _).
    destruct (getX i ltac:(lia)) as (Xi' & EXi' & FXi & VXi). rewrite EXi in EXi'. injection EXi' as <-.
    destruct (getY i ltac:(lia)) as (Yi & EYi & FYi & VYi). rewrite (nth_error_nth _ _ nan EYi).
    destruct (slopes H2 i ltac:(lia)) as (fd0 & E0 & S0 & _). specialize (S0 ltac:(lia)).
    destruct (slopes H2 (i + 1)%nat ltac:(lia)) as (fd1 & E1 & _ & S1). specialize (S1 ltac:(lia)).
    replace (i + 1 - 1)%nat with i in S1 by lia. replace (slp (i + 1)%nat) with (slp (S i)) in S1 by (f_equal; lia).
    destruct (grow_inv X Y n i c3 c2 c1 fd0 fd1 (hx_nz i ltac:(lia)) E0 E1 Eg) as (-> & -> & ->). clear Eg.
    pose proof (secants i ltac:(lia)) as Sc. set (h := width xs i) in *. pose proof (s_hpos _ _ _ _ Sc) as hp.
    pose proof (s_h _ _ _ _ Sc) as Rh. assert (Rh' : powerRZ 2 (-60) <= h <= powerRZ 2 60) by (unfold rng in Rh; rewrite Rabs_pos_eq in Rh by lra; exact Rh).
    set (p := ys (S i) - ys i).
    assert (Ep : sec i * h = p) by (unfold sec, secant, h, width, p; field; unfold h, width in hp; lra).
    destruct (pchip_lim _ _ _ _ _ _ HB i ltac:(lia) Hi) as [(a0 & Ha0 & Ea0) (a1 & Ha1 & Ea1)]. fold n in Ea0, Ea1. fold (slp i) in Ea0. fold (slp (S i)) in Ea1. fold (sec i) in Ea0, Ea1.
    set (B := Rabs p + powerRZ 2 (-500)).
    assert (Q0 : sc B h 60 1 fd0 (a0 * p)) by (apply (slope_sc fd0 (slp i) (sec i) h p a0 60 S0 Rh hp Ep); [rewrite Ea0, <- Ep; ring|lra]).
    assert (Q1 : sc B h 60 1 fd1 (a1 * p)) by (apply (slope_sc fd1 (slp (S i)) (sec i) h p a1 60 S1 Rh hp Ep); [rewrite Ea1, <- Ep; ring|lra]).
    assert (Qd : sc B h 4 1 (dl X Y i) p) by (apply (secant_sc _ _ _ _ _ Sc Ep)).
    assert (Bp : Rabs p <= 2 * M).
    { unfold p. pose proof (Hys i ltac:(unfold n in Hi; lia)). pose proof (Hys (S i) ltac:(unfold n in Hi; lia)).
      unfold Rminus. eapply Rle_trans; [apply Rabs_triang|]. rewrite Rabs_Ropp. lra. }
    assert (P5 : powerRZ 2 (-500) <= powerRZ 2 (-90) * / 10000).
    { apply Rle_trans with (powerRZ 2 (-90) * powerRZ 2 (-20)); [rewrite pow2_mul; apply pow2_le; lia|]. apply Rmult_le_compat_l; [left; apply pow2_pos|simpl; lra]. }
    pose proof (pow2_pos (-500)) as P5p. pose proof (Rabs_pos p) as Pp.
    assert (P90 : 4 * powerRZ 2 90 <= powerRZ 2 100).
    { change 100%Z with (10 + 90)%Z. rewrite <- pow2_mul. apply Rmult_le_compat_r; [left; apply pow2_pos|simpl; lra]. }
    assert (HBB : powerRZ 2 (-500) <= B <= powerRZ 2 100) by (unfold B; lra).
    set (D := fval x - xs i). set (th := D / h).
    assert (Dh : 0 <= D <= h) by (unfold D, h, width; lra).
    assert (Bt : 0 <= th <= 1).
    { unfold th. split; [apply Rmult_le_pos; [lra|left; apply Rinv_0_lt_compat; exact hp]|]. apply Rmult_le_reg_r with h; [exact hp|]. unfold Rdiv. rewrite Rmult_assoc, Rinv_l by lra. lra. }
    assert (Eth : th * h = D) by (unfold th; field; lra).
    set (fs := sub x Xi : f64) in *.
    assert (Bs : finite64 fs /\ Rabs (fval fs - th * h) <= 101 / 100 * (u64 * h)).
    { unfold fs. change (sub x Xi : f64) with (sf_sub x Xi). destruct (sf_sub_near x Xi Fx FXi) as [Fs Es].
      - rewrite VXi. fold D. rewrite Rabs_pos_eq by lra. apply Rle_trans with (powerRZ 2 60); [lra|unfold big64; apply pow2_le; lia].
      - split; [exact Fs|]. rewrite Eth, <- VXi in *. unfold D. rewrite <- VXi. eapply Rle_trans; [exact Es|]. rewrite Rabs_pos_eq by (unfold D in Dh; lra).
        assert (u64 * (fval x - fval Xi) <= u64 * h) by (apply Rmult_le_compat_l; [left; apply u64_pos|unfold D in Dh; lra]).
        pose proof (Rmult_lt_0_compat _ _ u64_pos hp) as uhp.
        assert (eta64 <= / 1000 * (u64 * h)); [|lra].
        apply Rle_trans with (powerRZ 2 (-10) * (powerRZ 2 (-53) * powerRZ 2 (-60))).
        + rewrite !pow2_mul. unfold eta64. apply pow2_le. lia.
        + replace u64 with (powerRZ 2 (-53)) by (unfold u64; simpl; lra). apply Rmult_le_compat.
          * left; apply pow2_pos.
          * apply Rmult_le_pos; left; apply pow2_pos.
          * simpl. lra.
          * apply Rmult_le_compat_l; [left; apply pow2_pos|lra]. }
    destruct Bs as [Fs Bs]. clearbody fs.
    assert (Egh : g (fval x) = fval Yi + herm p (a0 * p) (a1 * p) th).
    { rewrite Egx, VYi. fold n. fold (slp i) (slp (S i)) (sec i) h D. rewrite Ea0, Ea1, <- Ep, <- Eth. unfold herm. field. lra. }
    assert (Bg : Rabs (fval Yi + herm p (a0 * p) (a1 * p) th) <= M).
    { rewrite <- Egh. apply Rabs_le. apply (Hin (fun v => - M <= v <= M)).
      - intros u v w Hu Hv Hw. lra.
      - intros j Hj. apply Rabs_le_inv. apply Hys. exact Hj.
      - assert (MO : forall a b, (a <= b)%nat -> (b < n)%nat -> xs a <= xs b).
        { intros a b Hab. induction Hab as [|b Hab IH]; intros Hb; [lra|]. pose proof (blk_inc _ _ _ _ _ _ HB b ltac:(lia) Hb). specialize (IH ltac:(lia)). lra. }
        pose proof (MO 0%nat i ltac:(lia) ltac:(lia)). pose proof (MO (S i) (n - 1)%nat ltac:(lia) ltac:(lia)). lra. }
    destruct (piece_round B h (hx X i) fs th (dl X Y i) fd0 fd1 Yi p a0 a1 M HBB Rh' (s_fh _ _ _ _ Sc) Fs Bt Bs ltac:(unfold B; lra) Ha0 Ha1 Qd Q0 Q1 FYi HM Bg ltac:(unfold B; lra)) as [Fy By].
    rewrite piece_pval. generalize dependent (piece_y (hx X i) fs (dl X Y i) fd0 fd1 Yi). intros z Fy By. rewrite Egh. split; [exact Fy|]. eapply Rle_trans; [exact By|].
    pose proof (pow2_pos (-90)). assert (uMp : 0 < u64 * M) by (apply Rmult_lt_0_compat; [apply u64_pos|lra]).
    assert (u64 * B <= u64 * (2 * M + M * / 10000)) by (apply Rmult_le_compat_l; [left; apply u64_pos|unfold B; lra]). lra.
  Qed.
End Interp.

Lemma pchip_interpolator64 (junk : f64) M : powerRZ 2 (-90) <= M <= powerRZ 2 90 ->
  interpolator64 (pchip_coeffs_1_nonan junk) pchip_fun (powerRZ 2 (-60)) (powerRZ 2 60) M (204 * (u64 * M)).
Proof.
  intros HM X Y X' Y' xs ys HX HY HB H1 Hsp Hys.
  pose proof (blk_len _ _ _ _ _ _ HB) as Hl'.
  pose proof (holds_length _ _ HX) as LX. pose proof (holds_length _ _ HY) as LY.
  destruct (pchip_interpolator NaN X' Y' xs ys HB H1) as (C' & g & _ & _ & Hrel & Hcont & Hin & _).
  set (n := length X') in *.
  pose proof (hx_nz X Y X' Y' xs ys M HX HY HB H1 Hsp Hys HM) as Hz. fold n in Hz.
  destruct (pchip_exists X Y n LX ltac:(congruence) Hz) with (junk := junk) as (C & EC); [|exact H1|].
  { intros H2 j Hj. destruct (slopes X Y X' Y' xs ys M HX HY HB H1 Hsp Hys HM H2 j Hj) as (fd & E & _). exists fd. exact E. }
  exists C, g. split; [exact EC|]. split; [exact Hrel|]. split; [exact Hcont|]. split; [exact Hin|].
  intros x Fx Hx. unfold pchip_coeffs_1_nonan in EC. rewrite LX in EC. fold n in EC.
  destruct (pchip_coeffs_kK_inv X Y junk 0 n C ltac:(congruence) ltac:(rewrite LX; fold n; lia) EC) as (_ & _ & Hc).
  assert (Hh : holds x (Fin (fval x))) by (split; [exact Fx|reflexivity]).
  destruct (in_piece_exists _ _ _ _ _ _ HB (fval x) ltac:(lia) Hx) as (i & Hi). fold n in Hi.
  pose proof (locate_piece _ _ _ _ _ _ HB _ _ Hi) as Eloc. rewrite <- (locate_nonan_same _ _ _ _ _ HB H1) in Eloc.
  rewrite <- (holds_locate_nonan _ _ _ _ HX Hh) in Eloc.
  destruct (Hc i ltac:(lia) ltac:(destruct Hi as (_ & Hi & _); lia)) as (_ & c3 & c2 & c1 & Nc & Hg3 & Hg2).
  destruct (getX X X' Y' xs ys HX HB H1 i) as (Xi & EXi & FXi & VXi). { destruct Hi as (_ & Hi & _). fold n. lia. }
  exists (pval (sub x Xi) [c3; c2; c1; nth i Y nan] 0). split.
  - unfold ppval_1_nonan. rewrite Eloc. cbn [bind]. rewrite (get_ok _ _ _ EXi). cbn [bind]. rewrite (get_ok _ _ _ Nc). reflexivity.
  - destruct (Nat.eq_dec n 2) as [E2|N2].
    + destruct (Hg2 ltac:(lia)) as (-> & -> & ->). assert (i = 0%nat) by (destruct Hi as (_ & Hi & _); lia). subst i.
      pose proof (Hrel _ _ Hi) as Eg. destruct Hi as (_ & Hi & Hxi & _).
      destruct (getX X X' Y' xs ys HX HB H1 (0 + 1)) as (Xj & EXj & FXj & VXj). { fold n. lia. }
      destruct (getY Y X' Y' xs ys HY HB H1 0) as (Yi & EYi & FYi & VYi). { fold n. lia. }
      destruct (getY Y X' Y' xs ys HY HB H1 (0 + 1)) as (Yj & EYj & FYj & VYj). { fold n. lia. }
      unfold dl, hx. rewrite (nth_error_nth _ _ nan EXi), (nth_error_nth _ _ nan EXj), (nth_error_nth _ _ nan EYi), (nth_error_nth _ _ nan EYj).
      cbn [Nat.add] in *.
      destruct (Hsp 0%nat Hi) as [Sp1 Sp2].
      destruct (lin_round x Xi Xj Yi Yj M Fx FXi FXj FYi FYj HM) as [Fy By].
      * rewrite VXi, VXj. split; eapply Rle_trans; [apply (pow2_le (-900) (-60)); lia|exact Sp1|exact Sp2|apply pow2_le; lia].
      * rewrite VXi, VXj. exact Hxi.
      * rewrite VYi. apply Hys. fold n. lia.
      * rewrite VYj. apply Hys. exact Hi.
      * assert (Ed : finite64 (sub x Xi : f64)).
        { change (sub x Xi : f64) with (sf_sub x Xi). apply (sf_sub_near x Xi Fx FXi). rewrite VXi. rewrite Rabs_pos_eq by lra.
          apply Rle_trans with (powerRZ 2 60); [lra|unfold big64; apply pow2_le; lia]. }
        assert (Ep : pval (sub x Xi) [lit 0 0; lit 0 0; div (sub Yj Yi) (sub Xj Xi); Yi] 0 = lin_y x Xi Xj Yi Yj).
        { rewrite pval_cubic. unfold lin_y. rewrite !(zero_poly _ Ed). reflexivity. }
        rewrite Ep. split; [exact Fy|]. rewrite Eg. cbv zeta. unfold pchip_slope. rewrite E2. cbn [Nat.eqb Nat.sub].
        assert (E49 : powerRZ 2 (-49) * M = 16 * (u64 * M)) by (replace (powerRZ 2 (-49)) with (16 * u64) by (unfold u64; simpl; lra); ring).
        rewrite E49 in By. pose proof (pow2_pos (-90)) as P90. assert (0 < u64 * M) by (apply Rmult_lt_0_compat; [apply u64_pos|lra]).
        eapply Rle_trans; [|apply Rle_trans with (16 * (u64 * M)); [exact By|lra]]. apply Req_le. f_equal. f_equal.
        unfold secant. rewrite <- VXi, <- VXj, <- VYi, <- VYj in *. unfold width. pose proof (pow2_pos (-60)). field. rewrite <- VXi, <- VXj. lra.
    + apply (piece_value X Y X' Y' xs ys M HX HY HB H1 Hsp Hys HM g x i Hrel Hin Fx Hi ltac:(fold n; lia)); [apply Hg3; lia|exact EXi].
Qed.

Lemma pchip_round (junk : f64) M : powerRZ 2 (-90) <= M <= powerRZ 2 90 ->
  interpolator64 (pchip_coeffs_1_nonan junk) pchip_fun (powerRZ 2 (-60)) (powerRZ 2 60) M (204 * (powerRZ 2 (-53) * M)).
Proof.
  intros H. replace (powerRZ 2 (-53)) with u64 by (unfold u64; simpl; lra). exact (pchip_interpolator64 junk M H).
Qed.
