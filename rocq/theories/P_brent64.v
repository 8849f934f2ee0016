(** * Brent's method in binary64 *)
From Coq Require Import ZArith Reals Bool SpecFloat Lia Lra Psatz.
From Flocq Require Import Core BinarySingleNaN Relative.
From Verif Require Import Num SF Res M_fzero S_float P_float P_fl.
Open Scope R_scope.

#[local] Existing Instance P_float.prec_pos.
#[local] Existing Instance P_float.prec_max.

Lemma rnd_zero : rnd 0 = 0.
Proof. exact (rnd_fval (S754_zero false) I). Qed.

Definition lim9 : R := powerRZ 2 900.

Lemma lim9_big : 16 * lim9 <= big64 /\ 1 <= lim9.
Proof.
  unfold lim9, big64. change (powerRZ 2 900) with (2 ^ 900). change (powerRZ 2 1000) with (2 ^ 1000).
  replace (2 ^ 1000) with (2 ^ 100 * 2 ^ 900) by (rewrite <- pow_add; reflexivity).
  assert (A : 16 <= 2 ^ 100) by (apply Rle_trans with (2 ^ 4); [lra|apply Rle_pow; [lra|lia]]).
  assert (B : 1 <= 2 ^ 900) by (apply pow_R1_Rle; lra). split; [|exact B].
  apply Rmult_le_compat_r; [lra|exact A].
Qed.

Lemma eta_small t : / lim9 <= t -> 1024 * eta64 <= u64 * t.
Proof.
  intros H. unfold lim9 in H. change (powerRZ 2 900) with (2 ^ 900) in H.
  apply Rle_trans with (u64 * / 2 ^ 900); [|apply Rmult_le_compat_l; [left; apply u64_pos|exact H]].
  unfold eta64. change (powerRZ 2 (-1075)) with (/ 2 ^ 1075).
  replace (2 ^ 1075) with (2 ^ 175 * 2 ^ 900) by (rewrite <- pow_add; reflexivity).
  assert (P : 0 < 2 ^ 900) by (apply pow_lt; lra). assert (Q : 0 < 2 ^ 175) by (apply pow_lt; lra).
  rewrite Rinv_mult. rewrite <- Rmult_assoc. apply Rmult_le_compat_r; [left; apply Rinv_0_lt_compat; exact P|].
  apply Rmult_le_reg_r with (2 ^ 175); [exact Q|]. rewrite Rmult_assoc, Rinv_l by lra.
  unfold u64. replace (2 ^ 175) with (2 ^ 63 * 2 ^ 112) by (rewrite <- pow_add; reflexivity).
  assert (B : 1 <= 2 ^ 112) by (apply pow_R1_Rle; lra).
  replace (2 ^ 63) with (1024 * 9007199254740992) by (rewrite (pow_IZR 2 63); rewrite <- mult_IZR; reflexivity).
  lra.
Qed.

Lemma near_le z v B : near z v -> Rabs v <= B -> Rabs (fval z) <= B + u64 * B + eta64.
Proof.
  intros [_ H] V. replace (fval z) with (v + (fval z - v)) by ring. eapply Rle_trans; [apply Rabs_triang|].
  assert (u64 * Rabs v <= u64 * B) by (apply Rmult_le_compat_l; [left; apply u64_pos|exact V]). lra.
Qed.

Lemma eta_tiny : eta64 <= 1.
Proof.
  unfold eta64. change (powerRZ 2 (-1075)) with (/ 2 ^ 1075). rewrite <- Rinv_1. apply Rinv_le_contravar; [lra|].
  apply pow_R1_Rle. lra.
Qed.

(** ** the tolerance and the half distance *)
Section Quantities.
  Variables b c t : f64.
  Hypotheses (Fb : finite64 b) (Fc : finite64 c) (Ft : finite64 t).
  Hypotheses (Lb : Rabs (fval b) <= lim9) (Lc : Rabs (fval c) <= lim9) (Lt : / lim9 <= fval t <= lim9).

  Definition tol_ : f64 := sf_add (sf_mul (mul (lit 2 0 : f64) eps) (SFabs b)) t.
  Definition m_ : f64 := sf_mul (lit 5 (-1) : f64) (sf_sub c b).
  Definition T_ : R := 2 * / 4503599627370496 * Rabs (fval b) + fval t.

  Lemma t_pos : 0 < fval t.
  Proof. destruct Lt as [H _]. destruct lim9_big as [_ L]. pose proof (Rinv_0_lt_compat lim9 ltac:(lra)). lra. Qed.

  Lemma tol_near : finite64 tol_ /\ (1 - 3 * u64) * T_ <= fval tol_ <= (1 + 3 * u64) * T_.
  Proof.
    pose proof t_pos as Tp. pose proof (eta_small _ (proj1 Lt)) as He. destruct lim9_big as [B1 B2].
    destruct fl_2eps as [Fe Ee]. destruct (SFabs_exact b Fb) as [Fa Ea]. pose proof (Rabs_pos (fval b)) as Pb.
    destruct (sf_mul_near (mul (lit 2 0 : f64) eps) (SFabs b) Fe Fa) as [Fx Hx].
    { rewrite Ee, Ea, Rabs_mult, Rabs_Rabsolu, Rabs_pos_eq by lra. lra. }
    rewrite Ee, Ea in Hx. rewrite Rabs_mult, Rabs_Rabsolu, (Rabs_pos_eq (/ _)) in Hx by lra.
    set (x := sf_mul (mul (lit 2 0 : f64) eps) (SFabs b)) in *.
    pose proof eta_tiny as Et.
    apply Rabs_le_inv in Hx. unfold u64 in Hx, He.
    destruct (sf_add_near x t Fx Ft) as [Fy Hy].
    { apply Rabs_le. lra. }
    unfold tol_, T_. split; [exact Fy|]. fold x. 
    assert (Hs : Rabs (fval x + fval t) <= (1 + u64) * (2 * / 4503599627370496 * Rabs (fval b) + fval t)).
    { unfold u64. apply Rabs_le. lra. }
    apply Rabs_le_inv in Hy. unfold u64 in *. lra.
  Qed.

  Lemma m_near : finite64 m_ /\ Rabs (fval m_ - (fval c - fval b) / 2) <= 1.01 * u64 * Rabs (fval c - fval b) + 2 * eta64
    /\ 0 <= fval m_ * (fval c - fval b) /\ Rabs (fval m_) <= 3 * lim9.
  Proof.
    destruct lim9_big as [B1 B2]. pose proof eta_tiny as Et. destruct fl_half as [Fh Eh]. pose proof eta64_pos as Ep.
    set (w := fval c - fval b). assert (Hw : Rabs w <= 2 * lim9).
    { unfold w. apply Rabs_le_inv in Lb. apply Rabs_le_inv in Lc. apply Rabs_le. lra. }
    destruct (sf_sub_near c b Fc Fb ltac:(fold w; lra)) as [Fd Hd]. fold w in Hd.
    assert (Sd : 0 <= fval (sf_sub c b) * w /\ Rabs (fval (sf_sub c b)) <= 4 * lim9).
    { destruct (sub_val c b Fc Fb) as [_ E]; [fold w; apply rnd_small; lra|]. fold w in E. split.
      - rewrite E. destruct (Rle_dec 0 w) as [P|P].
        + pose proof (fval_le_rnd w (S754_zero false) I P) as Q. cbn [fval] in Q. nra.
        + pose proof (rnd_le_fval w (S754_zero false) I ltac:(cbn [fval]; lra)) as Q. cbn [fval] in Q. nra.
      - pose proof (near_le _ _ _ (conj Fd Hd) Hw) as Q. unfold u64 in Q. lra. }
    set (d := sf_sub c b) in *. destruct Sd as [Sd Ld].
    destruct (sf_mul_near (lit 5 (-1) : f64) d Fh Fd) as [Fm Hm].
    { rewrite Eh, Rabs_mult, (Rabs_pos_eq (/ 2)) by lra. lra. }
    rewrite Eh in Hm. rewrite Rabs_mult, (Rabs_pos_eq (/ 2)) in Hm by lra.
    unfold m_. fold d. split; [exact Fm|]. split; [|split].
    - replace (fval (sf_mul (lit 5 (-1) : f64) d) - w / 2) with
        ((fval (sf_mul (lit 5 (-1) : f64) d) - / 2 * fval d) + / 2 * (fval d - w)) by field.
      eapply Rle_trans; [apply Rabs_triang|]. rewrite (Rabs_mult (/ 2)), (Rabs_pos_eq (/ 2)) by lra.
      assert (Q : Rabs (fval d) <= (1 + u64) * Rabs w + eta64).
      { replace (fval d) with (w + (fval d - w)) by ring. eapply Rle_trans; [apply Rabs_triang|]. lra. }
      pose proof (Rabs_pos w). unfold u64 in *. lra.
    - destruct (mul_val (lit 5 (-1) : f64) d Fh Fd) as [_ E]; [apply rnd_small; rewrite Eh, Rabs_mult, (Rabs_pos_eq (/ 2)) by lra; lra|].
      rewrite Eh in E. rewrite E. destruct (Rtotal_order (fval d) 0) as [P|[P|P]].
      + pose proof (rnd_le_fval (/ 2 * fval d) (S754_zero false) I ltac:(cbn [fval]; lra)) as Q. cbn [fval] in Q.
        destruct (Rle_dec w 0); nra.
      + rewrite P, Rmult_0_r, rnd_zero. lra.
      + pose proof (fval_le_rnd (/ 2 * fval d) (S754_zero false) I ltac:(cbn [fval]; lra)) as Q. cbn [fval] in Q.
        destruct (Rle_dec 0 w); nra.
    - assert (Q : Rabs (/ 2 * fval d) <= 1.75 * lim9).
      { rewrite Rabs_mult, (Rabs_pos_eq (/ 2)) by lra. 
        assert (Q : Rabs (fval d) <= (1 + u64) * Rabs w + eta64).
        { replace (fval d) with (w + (fval d - w)) by ring. eapply Rle_trans; [apply Rabs_triang|]. lra. }
        unfold u64 in Q. pose proof (Rabs_pos w). lra. }
      replace (Rabs (/ 2 * fval d)) with (/ 2 * Rabs (fval d)) in Q by (rewrite Rabs_mult, (Rabs_pos_eq (/ 2)) by lra; reflexivity).
      replace (fval (sf_mul (lit 5 (-1) : f64) d)) with (/ 2 * fval d + (fval (sf_mul (lit 5 (-1) : f64) d) - / 2 * fval d)) by ring.
      eapply Rle_trans; [apply Rabs_triang|]. rewrite (Rabs_mult (/ 2)), (Rabs_pos_eq (/ 2)) by lra. unfold u64 in *. lra.
  Qed.

  (** the loop ends: the distance is small *)
  Lemma stop_near : Rabs (fval m_) <= fval tol_ -> Rabs (fval c - fval b) <= 2 * T_ * (1 + 8 * u64).
  Proof.
    intros H. destruct tol_near as [_ [_ H1]]. destruct m_near as (_ & H2 & _). pose proof t_pos as Tp.
    pose proof (eta_small _ (proj1 Lt)) as He. pose proof (Rabs_pos (fval b)) as Pb.
    assert (HT : fval t <= T_) by (unfold T_; lra).
    assert (Q : Rabs ((fval c - fval b) / 2) <= Rabs (fval m_) + Rabs (fval m_ - (fval c - fval b) / 2)).
    { replace ((fval c - fval b) / 2) with (fval m_ - (fval m_ - (fval c - fval b) / 2)) at 1 by ring.
      unfold Rminus at 1. eapply Rle_trans; [apply Rabs_triang|]. rewrite Rabs_Ropp. lra. }
    unfold Rdiv in Q at 1. rewrite Rabs_mult, (Rabs_pos_eq (/ 2)) in Q by lra.
    set (w := Rabs (fval c - fval b)) in *. unfold u64 in *.
    assert (w * (/ 2 - 1.01 * / 9007199254740992) <= (1 + 4 * / 9007199254740992) * T_) by lra. lra.
  Qed.

  (** the loop goes on: the distance is not small *)
  Lemma go_near : fval tol_ < Rabs (fval m_) ->
    0 < fval tol_ /\ 1.99 * fval t <= Rabs (fval c - fval b) /\ 3.99 * / 9007199254740992 * Rabs (fval b) + 0.99 * fval t <= fval tol_
    /\ 7.9 * / 9007199254740992 * Rabs (fval b) <= Rabs (fval c - fval b)
    /\ Rabs (fval m_) <= 0.5001 * Rabs (fval c - fval b) /\ 0 < fval m_ * (fval c - fval b).
  Proof.
    intros H. destruct tol_near as [_ [H0 H1]]. destruct m_near as (_ & H2 & H3 & _). pose proof t_pos as Tp.
    pose proof (eta_small _ (proj1 Lt)) as He. pose proof (Rabs_pos (fval b)) as Pb.
    assert (ET : T_ = 2 * / 4503599627370496 * Rabs (fval b) + fval t) by reflexivity.
    assert (Q : Rabs (fval m_) <= Rabs ((fval c - fval b) / 2) + Rabs (fval m_ - (fval c - fval b) / 2)).
    { replace (fval m_) with ((fval c - fval b) / 2 + (fval m_ - (fval c - fval b) / 2)) at 1 by ring. apply Rabs_triang. }
    unfold Rdiv in Q at 1. rewrite Rabs_mult, (Rabs_pos_eq (/ 2)) in Q by lra.
    assert (P1 : 0 < fval tol_) by (unfold u64 in *; lra).
    assert (P2 : 0 < Rabs (fval c - fval b)).
    { destruct (Rle_lt_dec (Rabs (fval c - fval b)) 0); [|assumption]. exfalso. pose proof (Rabs_pos (fval c - fval b)). unfold u64 in *. lra. }
    repeat split.
    - exact P1.
    - unfold u64 in *; lra.
    - unfold u64 in *; lra.
    - unfold u64 in *; lra.
    - unfold u64 in *; lra.
    - destruct H3 as [H3|H3]; [exact H3|]. exfalso.
      assert (fval m_ <> 0) by (intro Z; rewrite Z, Rabs_R0 in H; lra).
      assert (fval c - fval b <> 0) by (intro Z; rewrite Z, Rabs_R0 in P2; lra).
      symmetry in H3. apply Rmult_integral in H3. tauto.
  Qed.
End Quantities.

(** ** the interpolation step *)
Lemma SFopp_exact x : finite64 x -> finite64 (SFopp x) /\ fval (SFopp x) = - fval x.
Proof.
  intros F. destruct x as [s|s| |s m e].
  - split; [exact I|]. cbn [SFopp fval]. lra.
  - elim F.
  - elim F.
  - split; [exact F|]. cbn [SFopp fval]. destruct s; cbn [negb]; lra.
Qed.

Lemma sdiv_ok (x y : f64) : finite64 y -> fval y <> 0 -> sdiv x y = Ok (sf_div x y).
Proof.
  intros F N. unfold sdiv. change (eqb y zero) with (SFeqb y (lit 0 0 : f64)).
  destruct fl_zero as [Fz Ez]. rewrite eqb_val, Ez by assumption. rewrite Req_bool_false by exact N. reflexivity.
Qed.

Lemma interp_ok (a b c fa fb fc m : f64) : finite64 a -> finite64 b -> finite64 c -> finite64 fa -> finite64 fb -> finite64 fc ->
  finite64 m -> fval fa <> 0 -> fval fc <> 0 ->
  exists p q : f64, brent_interp a b c fa fb fc m = Ok (p, q) /\ valid64 p /\ valid64 q.
Proof.
  intros Fa Fb Fc Ffa Ffb Ffc Fm Na Nc. unfold brent_interp. rewrite (sdiv_ok fb fa Ffa Na). cbn [bind].
  pose proof (valid_finite _ Fa) as Va. pose proof (valid_finite _ Fb) as Vb. pose proof (valid_finite _ Ffa) as Vfa.
  pose proof (valid_finite _ Ffb) as Vfb. pose proof (valid_finite _ Ffc) as Vfc. pose proof (valid_finite _ Fm) as Vm.
  pose proof (valid_finite _ (proj1 fl_two)) as V2. pose proof (valid_finite _ (proj1 fl_one)) as V1.
  pose proof (valid_div _ _ Vfb Vfa) as Vs.
  destruct (eqb a c).
  - eexists. eexists. split; [reflexivity|]. split.
    + apply valid_mul; [apply valid_mul; assumption|assumption].
    + apply valid_sub; assumption.
  - rewrite (sdiv_ok fa fc Ffc Nc), (sdiv_ok fb fc Ffc Nc). cbn [bind].
    pose proof (valid_div _ _ Vfa Vfc) as Vq. pose proof (valid_div _ _ Vfb Vfc) as Vr.
    eexists. eexists. split; [reflexivity|]. split.
    + apply valid_mul; [exact Vs|]. apply valid_sub.
      * apply valid_mul; [apply valid_mul; [apply valid_mul; assumption|assumption]|apply valid_sub; assumption].
      * apply valid_mul; apply valid_sub; assumption.
    + apply valid_mul; [apply valid_mul|]; apply valid_sub; assumption.
Qed.

Lemma mul_fin_inv tol q : finite64 tol -> valid64 q -> finite64 (sf_mul tol q) -> finite64 q.
Proof.
  intros Ft Vq H. destruct (valid_cases _ Vq) as [Fq|[(s & ->)| ->]]; [exact Fq| |]; exfalso.
  - destruct tol as [s'|s'| |s' m e]; exact H.
  - destruct tol as [s'|s'| |s' m e]; exact H.
Qed.

(** an accepted interpolation has the direction of [m] and is short enough *)
Lemma accepted p q m tol : valid64 p -> valid64 q -> finite64 m -> finite64 tol -> Rabs (fval m) <= 3 * lim9 ->
  (finite64 p -> 0 <= fval p) -> p <> S754_infinity true ->
  SFltb (sf_mul (lit 2 0 : f64) p) (sf_sub (sf_mul (sf_mul (lit 3 0 : f64) m) q) (SFabs (sf_mul tol q))) = true ->
  finite64 q /\ fval q <> 0 /\ finite64 (sf_div p q) /\ 0 <= fval (sf_div p q) * fval m /\
  Rabs (fval (sf_div p q)) <= 1.5 * (1 + 3 * u64) * Rabs (fval m) + 2 * eta64.
Proof.
  intros Vp Vq Fm Ft Lm Pp Np H. destruct fl_two as [F2 E2]. destruct fl_three as [F3 E3].
  pose proof eta_tiny as Et. pose proof eta64_pos as Ep. destruct lim9_big as [B1 B2].
  assert (Fp : finite64 p).
  { destruct (valid_cases _ Vp) as [Fp|[([|] & ->)| ->]]; [exact Fp|elim Np; reflexivity| |]; exfalso.
    - change (sf_mul (lit 2 0 : f64) (S754_infinity false)) with (S754_infinity false) in H. rewrite inf_ltb in H. discriminate.
    - change (sf_mul (lit 2 0 : f64) S754_nan) with S754_nan in H. rewrite nan_ltb in H. discriminate. }
  specialize (Pp Fp).
  assert (R2 : rnd (2 * fval p) = 2 * fval p).
  { apply round_generic; [apply valid_rnd_round_mode|]. apply double_format. exact Fp. }
  assert (W : finite64 (sf_mul (lit 2 0 : f64) p) /\ fval (sf_mul (lit 2 0 : f64) p) = 2 * fval p).
  { destruct (Rlt_or_le (Rabs (rnd (fval (lit 2 0 : f64) * fval p))) (bpow radix2 1024)) as [L|L].
    - destruct (mul_val _ _ F2 Fp L) as [A B]. split; [exact A|]. rewrite B, E2. exact R2.
    - exfalso. destruct (mul_overflow _ _ F2 Fp L) as [[_ E]|[N _]].
      + rewrite E, inf_ltb in H. discriminate.
      + rewrite E2 in N. lra. }
  destruct W as [FW EW]. set (w := sf_mul (lit 2 0 : f64) p) in *.
  assert (L3 : Rabs (3 * fval m) <= big64) by (rewrite Rabs_mult, (Rabs_pos_eq 3) by lra; lra).
  destruct (sf_mul_near (lit 3 0 : f64) m F3 Fm ltac:(rewrite E3; exact L3)) as [FM HM]. rewrite E3 in HM.
  destruct (mul_val (lit 3 0 : f64) m F3 Fm ltac:(rewrite E3; apply rnd_small; exact L3)) as [_ EM]. rewrite E3 in EM.
  assert (SM : 0 < fval (sf_mul (lit 3 0 : f64) m) -> 0 < fval m).
  { intros P. rewrite EM in P. apply Rnot_le_lt. intro Q.
    pose proof (rnd_le_fval (3 * fval m) (S754_zero false) I ltac:(cbn [fval]; lra)) as Z. cbn [fval] in Z. lra. }
  assert (SM' : fval (sf_mul (lit 3 0 : f64) m) < 0 -> fval m < 0).
  { intros P. rewrite EM in P. apply Rnot_le_lt. intro Q.
    pose proof (fval_le_rnd (3 * fval m) (S754_zero false) I ltac:(cbn [fval]; lra)) as Z. cbn [fval] in Z. lra. }
  set (M := sf_mul (lit 3 0 : f64) m) in *.
  destruct (sub_abs_gt w (sf_mul M q) (sf_mul tol q) FW) as [H' FV].
  { apply valid_mul; [apply valid_finite; exact FM|exact Vq]. }
  { apply valid_mul; [apply valid_finite; exact Ft|exact Vq]. }
  { exact H. }
  pose proof (mul_fin_inv tol q Ft Vq FV) as Fq.
  pose proof (mul_gt w M q FW FM Fq H') as G. rewrite EW in G.
  assert (Nq : fval q <> 0) by (intro Z; rewrite Z in G; lra).
  assert (PM : 0 < fval M * fval q) by lra.
  (* |p/q| < |M| / 2 *)
  assert (QB : Rabs (fval p / fval q) <= / 2 * Rabs (fval M)).
  { unfold Rdiv. rewrite Rabs_mult, Rabs_inv. pose proof (Rabs_pos_lt _ Nq) as Pq.
    apply Rmult_le_reg_r with (Rabs (fval q)); [exact Pq|]. rewrite Rmult_assoc, Rinv_l by lra.
    rewrite Rmult_1_r, Rmult_assoc, <- Rabs_mult, (Rabs_pos_eq (fval p)), (Rabs_pos_eq (fval M * fval q)) by lra. lra. }
  rewrite (Rabs_mult 3), (Rabs_pos_eq 3) in HM by lra. pose proof (Rabs_pos (fval m)) as Pm.
  assert (MB : Rabs (fval M) <= 3 * (1 + u64) * Rabs (fval m) + eta64).
  { replace (fval M) with (3 * fval m + (fval M - 3 * fval m)) by ring. eapply Rle_trans; [apply Rabs_triang|].
    rewrite Rabs_mult, (Rabs_pos_eq 3) by lra. lra. }
  assert (LB : Rabs (fval p / fval q) <= big64) by (unfold u64 in *; lra).
  destruct (div_val p q Fp Fq Nq (rnd_small _ LB)) as [Fd Ed].
  pose proof (rnd_err (fval p / fval q)) as HR. rewrite <- Ed in HR.
  split; [exact Fq|]. split; [exact Nq|]. split; [exact Fd|]. split.
  - rewrite Ed. destruct (Rtotal_order (fval M) 0) as [P|[P|P]].
    + assert (fval q < 0) by nra. pose proof (SM' P) as Q.
      assert (fval p / fval q <= 0).
      { unfold Rdiv. assert (/ fval q < 0) by (apply Rinv_lt_0_compat; assumption). nra. }
      pose proof (rnd_le_fval (fval p / fval q) (S754_zero false) I ltac:(cbn [fval]; lra)) as Z. cbn [fval] in Z. nra.
    + rewrite P in PM. lra.
    + assert (0 < fval q) by nra. pose proof (SM P) as Q.
      assert (0 <= fval p / fval q).
      { unfold Rdiv. assert (0 < / fval q) by (apply Rinv_0_lt_compat; assumption). nra. }
      pose proof (fval_le_rnd (fval p / fval q) (S754_zero false) I ltac:(cbn [fval]; lra)) as Z. cbn [fval] in Z. nra.
  - replace (fval (sf_div p q)) with (fval p / fval q + (fval (sf_div p q) - fval p / fval q)) by ring.
    eapply Rle_trans; [apply Rabs_triang|]. unfold u64 in *. lra.
Qed.

Lemma choose_ok (a b c fa fb fc d e m tol : f64) : finite64 a -> finite64 b -> finite64 c -> finite64 fa -> finite64 fb -> finite64 fc ->
  finite64 m -> finite64 tol -> fval fb <> 0 -> Rabs (fval fb) <= Rabs (fval fc) -> Rabs (fval m) <= 3 * lim9 ->
  exists d' e' : f64, brent_choose a b c fa fb fc d e m tol = Ok (d', e') /\ finite64 d' /\ 0 <= fval d' * fval m /\
    Rabs (fval d') <= 1.5 * (1 + 3 * u64) * Rabs (fval m) + 2 * eta64.
Proof.
  intros Fa Fb Fc Ffa Ffb Ffc Fm Ft Nb Lbc Lm.
  assert (Bis : finite64 m /\ 0 <= fval m * fval m /\ Rabs (fval m) <= 1.5 * (1 + 3 * u64) * Rabs (fval m) + 2 * eta64).
  { split; [exact Fm|]. split; [nra|]. pose proof eta64_pos. pose proof (Rabs_pos (fval m)). unfold u64. lra. }
  unfold brent_choose. destruct (ltb (fabs e) tol); [exists m, m; split; [reflexivity|exact Bis]|].
  change (leb (fabs fa) (fabs fb)) with (SFleb (SFabs fa) (SFabs fb)).
  destruct (SFabs_exact fa Ffa) as [F1 E1]. destruct (SFabs_exact fb Ffb) as [F2 E2].
  rewrite leb_val, E1, E2 by assumption. destruct (Rle_bool_spec (Rabs (fval fa)) (Rabs (fval fb))) as [L|L].
  { exists m, m. split; [reflexivity|exact Bis]. }
  cbn [orb]. pose proof (Rabs_pos_lt _ Nb) as Pb.
  assert (Na : fval fa <> 0) by (intro Z; rewrite Z, Rabs_R0 in L; lra).
  assert (Nc : fval fc <> 0) by (intro Z; rewrite Z, Rabs_R0 in Lbc; lra).
  destruct (interp_ok a b c fa fb fc m Fa Fb Fc Ffa Ffb Ffc Fm Na Nc) as (p & q & -> & Vp & Vq). cbn [bind].
  destruct fl_zero as [Fz Ez].
  assert (K : exists p' q' : f64, (if ltb (lit 0 0) p then (p, opp q) else (opp p, q)) = (p', q') /\ valid64 p' /\ valid64 q' /\
      (finite64 p' -> 0 <= fval p') /\ p' <> S754_infinity true).
  { change (ltb (lit 0 0) p) with (SFltb (lit 0 0 : f64) p). destruct (SFltb (lit 0 0 : f64) p) eqn:E.
    - exists p, (SFopp q). split; [reflexivity|]. split; [exact Vp|]. split; [apply valid_opp; exact Vq|]. split.
      + intros Fp. rewrite ltb_val, Ez in E by assumption. destruct (Rlt_bool_spec 0 (fval p)); [lra|discriminate].
      + intros ->. discriminate E.
    - exists (SFopp p), q. split; [reflexivity|]. split; [apply valid_opp; exact Vp|]. split; [exact Vq|]. split.
      + intros Fo. destruct p as [s|s| |s pm pe].
        * cbn. lra.
        * elim Fo.
        * elim Fo.
        * assert (Fp : finite64 (S754_finite s pm pe)) by exact Fo.
          rewrite ltb_val, Ez in E by assumption. destruct (SFopp_exact _ Fp) as [_ ->].
          destruct (Rlt_bool_spec 0 (fval (S754_finite s pm pe))); [discriminate|lra].
      + intros Z. destruct p as [s|[|]| |s pm pe]; try discriminate Z. discriminate E. }
  destruct K as (p' & q' & -> & Vp' & Vq' & Pp' & Np').
  match goal with |- context [if ?x && ?y then _ else _] => destruct x eqn:Ex; [destruct y|] end; cbn [andb].
  - destruct (accepted p' q' m tol Vp' Vq' Fm Ft Lm Pp' Np' Ex) as (Fq & Nq & Fd & Sd & Bd).
    rewrite (sdiv_ok p' q' Fq Nq). cbn [bind]. exists (sf_div p' q'), d. split; [reflexivity|]. split; [exact Fd|]. split; assumption.
  - exists m, m. split; [reflexivity|exact Bis].
  - exists m, m. split; [reflexivity|exact Bis].
Qed.

(** ** the step *)
Section Step.
  Variables b c t : f64.
  Hypotheses (Fb : finite64 b) (Fc : finite64 c) (Ft : finite64 t).
  Hypotheses (Lb : Rabs (fval b) <= lim9) (Lc : Rabs (fval c) <= lim9) (Lt : / lim9 <= fval t <= lim9).
  Hypothesis Go : fval (tol_ b t) < Rabs (fval (m_ b c)).

  Lemma step_real delta z : fval z = rnd (fval b + delta) ->
    0 < delta * (fval c - fval b) -> fval (tol_ b t) <= Rabs delta -> Rabs delta <= 0.751 * Rabs (fval c - fval b) ->
    (fval b <= fval z <= fval c \/ fval c <= fval z <= fval b) /\
    Rabs (fval c - fval z) <= Rabs (fval c - fval b) - fval t / 5 /\
    Rabs (fval b - fval z) <= Rabs (fval c - fval b) - fval t / 5.
  Proof.
    intros Ez Sd D1 D2. destruct (go_near b c t Fb Fc Ft Lb Lc Lt Go) as (_ & W1 & W2 & W3 & _).
    pose proof (rnd_err (fval b + delta)) as HR. rewrite <- Ez in HR.
    pose proof (eta_small _ (proj1 Lt)) as He. pose proof (t_pos t Lt) as Tp.
    pose proof (Rabs_triang (fval b) delta) as Tr.
    assert (HR' : Rabs (fval z - (fval b + delta)) <= u64 * (Rabs (fval b) + Rabs delta) + eta64).
    { assert (u64 * Rabs (fval b + delta) <= u64 * (Rabs (fval b) + Rabs delta)) by (apply Rmult_le_compat_l; [left; apply u64_pos|lra]). lra. }
    apply Rabs_le_inv in HR'. unfold u64 in *.
    destruct (Rlt_or_le 0 (fval c - fval b)) as [P|P].
    - assert (Pd : 0 < delta) by nra. rewrite (Rabs_pos_eq (fval c - fval b)) in * by lra. rewrite (Rabs_pos_eq delta) in * by lra.
      destruct (rnd_between b c (fval b + delta) Fb Fc ltac:(lra)) as [Bt _]. rewrite <- Ez in Bt.
      split; [left; exact Bt|]. rewrite (Rabs_pos_eq (fval c - fval z)), (Rabs_left1 (fval b - fval z)) by lra. lra.
    - assert (P' : fval c - fval b < 0) by (destruct P as [P|P]; [exact P|rewrite P, Rmult_0_r in Sd; lra]).
      assert (Pd : delta < 0) by nra. rewrite (Rabs_left (fval c - fval b)) in * by lra. rewrite (Rabs_left delta) in * by lra.
      destruct (rnd_between c b (fval b + delta) Fc Fb ltac:(lra)) as [Bt _]. rewrite <- Ez in Bt.
      split; [right; exact Bt|]. rewrite (Rabs_left1 (fval c - fval z)), (Rabs_pos_eq (fval b - fval z)) by lra. lra.
  Qed.

  Lemma step_ok d : finite64 d -> 0 <= fval d * fval (m_ b c) ->
    Rabs (fval d) <= 1.5 * (1 + 3 * u64) * Rabs (fval (m_ b c)) + 2 * eta64 ->
    let z := if SFltb (tol_ b t) (SFabs d) then sf_add b d
             else if SFltb (lit 0 0 : f64) (m_ b c) then sf_add b (tol_ b t) else sf_sub b (tol_ b t) in
    finite64 z /\
    (fval b <= fval z <= fval c \/ fval c <= fval z <= fval b) /\
    Rabs (fval c - fval z) <= Rabs (fval c - fval b) - fval t / 5 /\
    Rabs (fval b - fval z) <= Rabs (fval c - fval b) - fval t / 5.
  Proof.
    intros Fd Sd Bd z. destruct (go_near b c t Fb Fc Ft Lb Lc Lt Go) as (G0 & W1 & _ & _ & G4 & G5).
    destruct (tol_near b t Fb Ft Lb Lt) as [FT _]. destruct (m_near b c Fb Fc Lb Lc) as (Fm & _ & _ & Lm).
    pose proof (eta_small _ (proj1 Lt)) as He. pose proof (t_pos t Lt) as Tp. pose proof eta_tiny as Et.
    destruct lim9_big as [B1 B2].
    assert (LW : Rabs (fval c - fval b) <= 2 * lim9).
    { apply Rabs_le_inv in Lb. apply Rabs_le_inv in Lc. apply Rabs_le. lra. }
    assert (Bd' : Rabs (fval d) <= 0.751 * Rabs (fval c - fval b)) by (unfold u64 in *; lra).
    assert (SM : Rabs (fval (m_ b c)) <> 0) by (pose proof G0; lra).
    assert (big : forall delta, Rabs delta <= 0.751 * Rabs (fval c - fval b) -> Rabs (rnd (fval b + delta)) < bpow radix2 1024).
    { intros delta H. apply rnd_small. eapply Rle_trans; [apply Rabs_triang|]. lra. }
    destruct fl_zero as [Fz E0]. subst z.
    destruct (SFabs_exact d Fd) as [FA EA]. rewrite (ltb_val (tol_ b t)), EA by assumption.
    destruct (Rlt_bool_spec (fval (tol_ b t)) (Rabs (fval d))) as [L|L].
    - destruct (add_val b d Fb Fd (big _ Bd')) as [Fy Ey]. split; [exact Fy|].
      apply (step_real (fval d)); [exact Ey| |lra|exact Bd'].
      assert (Nd : fval d <> 0) by (intro Z; rewrite Z, Rabs_R0 in L; lra).
      assert (Nm : fval (m_ b c) <> 0) by (intro Z; rewrite Z, Rabs_R0 in Go; lra).
      assert (0 < fval d * fval (m_ b c)).
      { destruct Sd as [Sd|Sd]; [exact Sd|]. symmetry in Sd. apply Rmult_integral in Sd. tauto. }
      destruct (Rtotal_order (fval (m_ b c)) 0) as [P|[P|P]]; [|tauto|].
      + assert (fval d < 0) by nra. assert (fval c - fval b < 0) by nra. nra.
      + assert (0 < fval d) by nra. assert (0 < fval c - fval b) by nra. nra.
    - rewrite ltb_val, E0 by assumption. destruct (Rlt_bool_spec 0 (fval (m_ b c))) as [P|P].
      + assert (Bt : Rabs (fval (tol_ b t)) <= 0.751 * Rabs (fval c - fval b)) by (rewrite Rabs_pos_eq by lra; lra).
        destruct (add_val b (tol_ b t) Fb FT (big _ Bt)) as [Fy Ey]. split; [exact Fy|].
        apply (step_real (fval (tol_ b t))); [exact Ey| |rewrite Rabs_pos_eq by lra; lra|exact Bt].
        assert (0 < fval c - fval b) by nra. nra.
      + assert (Bt : Rabs (- fval (tol_ b t)) <= 0.751 * Rabs (fval c - fval b)) by (rewrite Rabs_Ropp, Rabs_pos_eq by lra; lra).
        destruct (sub_val b (tol_ b t) Fb FT (big _ Bt)) as [Fy Ey]. split; [exact Fy|].
        apply (step_real (- fval (tol_ b t))); [exact Ey| |rewrite Rabs_Ropp, Rabs_pos_eq by lra; lra|exact Bt].
        assert (fval c - fval b < 0) by nra. nra.
  Qed.
End Step.

(** ** the loop *)
Definition opposite64 (x y : f64) : Prop := (0 < fval x /\ fval y <= 0) \/ (fval x <= 0 /\ 0 < fval y).

Section Loop.
  Variable f : f64 -> res f64.
  Variables A B t : f64.
  Hypotheses (FA : finite64 A) (FB : finite64 B) (Ft : finite64 t).
  Hypotheses (LA : Rabs (fval A) <= lim9) (LB : Rabs (fval B) <= lim9) (Lt : / lim9 <= fval t <= lim9).
  Hypothesis Hf : forall x, finite64 x -> fval A <= fval x <= fval B -> exists y, f x = Ok y /\ finite64 y.

  Definition inside (x : f64) : Prop := finite64 x /\ fval A <= fval x <= fval B.

  Lemma inside_lim x : inside x -> Rabs (fval x) <= lim9.
  Proof. intros [_ H]. apply Rabs_le_inv in LA. apply Rabs_le_inv in LB. apply Rabs_le. lra. Qed.

  Definition final (x : f64) : Prop := inside x /\ exists fx, f x = Ok fx /\ finite64 fx /\
    (fval fx = 0 \/ exists y fy, inside y /\ f y = Ok fy /\ finite64 fy /\ opposite64 fx fy /\ Rabs (fval fx) <= Rabs (fval fy) /\
       Rabs (fval y - fval x) <= 2 * T_ x t * (1 + 8 * u64)).

  Definition inv (st : @bstate f64) : Prop :=
    finite64 (ba st) /\ inside (bb st) /\ inside (bc st) /\ finite64 (bfa st) /\ finite64 (bfb st) /\ finite64 (bfc st) /\
    f (bb st) = Ok (bfb st) /\ f (bc st) = Ok (bfc st) /\
    (opposite64 (bfb st) (bfc st) \/ fval (bfb st) = 0 \/ fval (bfc st) = 0).

  Lemma body_ok (st : @bstate f64) : inv st ->
    (exists x, brent_body f t st = Ok (inr x) /\ final x) \/
    (exists st' : @bstate f64, brent_body f t st = Ok (inl st') /\ inv st' /\
       Rabs (fval (bc st') - fval (bb st')) <= Rabs (fval (bc st) - fval (bb st)) - fval t / 5).
  Proof.
    destruct st as [a b c fa fb fc d e]. unfold inv. cbn [ba bb bc bfa bfb bfc].
    intros (Fa & Ib & Ic & Ffa & Ffb & Ffc & Eb & Ec & Op). unfold brent_body.
    change (ltb (fabs fc) (fabs fb)) with (SFltb (SFabs fc) (SFabs fb)).
    destruct (SFabs_exact fc Ffc) as [F1 E1]. destruct (SFabs_exact fb Ffb) as [F2 E2].
    (* the exchange, 89-95 *)
    assert (K : exists a' b' c' fa' fb' fc',
      (if SFltb (SFabs fc) (SFabs fb) then (b, c, b, fb, fc, fb) else (a, b, c, fa, fb, fc)) = (a', b', c', fa', fb', fc') /\
      finite64 a' /\ inside b' /\ inside c' /\ finite64 fa' /\ finite64 fb' /\ finite64 fc' /\ f b' = Ok fb' /\ f c' = Ok fc' /\
      (opposite64 fb' fc' \/ fval fb' = 0 \/ fval fc' = 0) /\ Rabs (fval fb') <= Rabs (fval fc') /\
      Rabs (fval c' - fval b') = Rabs (fval c - fval b)).
    { rewrite ltb_val, E1, E2 by assumption. destruct (Rlt_bool_spec (Rabs (fval fc)) (Rabs (fval fb))) as [L|L].
      - exists b, c, b, fb, fc, fb. split; [reflexivity|]. split; [exact (proj1 Ib)|]. split; [exact Ic|]. split; [exact Ib|].
        split; [exact Ffb|]. split; [exact Ffc|]. split; [exact Ffb|]. split; [exact Ec|]. split; [exact Eb|].
        split; [unfold opposite64 in *; tauto|]. split; [lra|]. apply Rabs_minus_sym.
      - exists a, b, c, fa, fb, fc. split; [reflexivity|]. split; [exact Fa|]. split; [exact Ib|]. split; [exact Ic|].
        split; [exact Ffa|]. split; [exact Ffb|]. split; [exact Ffc|]. split; [exact Eb|]. split; [exact Ec|].
        split; [exact Op|]. split; [exact L|]. reflexivity. }
    destruct K as (a' & b' & c' & fa' & fb' & fc' & EK & K). rewrite EK. clear EK Fa Ib Ic Ffa Ffb Ffc Eb Ec Op F1 E1 F2 E2.
    destruct K as (Fa & Ib & Ic & Ffa & Ffb & Ffc & Eb & Ec & Op & Lbc & <-).
    clear a b c fa fb fc. rename a' into a, b' into b, c' into c, fa' into fa, fb' into fb, fc' into fc.
    pose proof (inside_lim b Ib) as Lb. pose proof (inside_lim c Ic) as Lc.
    pose proof (proj1 Ib) as Fb. pose proof (proj1 Ic) as Fc. destruct fl_zero as [Fz E0].
    change (add (mul (mul (lit 2 0) eps) (fabs b)) t) with (tol_ b t). change (mul (lit 5 (-1)) (sub c b)) with (m_ b c).
    destruct (tol_near b t Fb Ft Lb Lt) as [FT _]. destruct (m_near b c Fb Fc Lb Lc) as (Fm & _ & _ & Lm).
    destruct (SFabs_exact (m_ b c) Fm) as [FM EM].
    change (leb (fabs (m_ b c)) (tol_ b t)) with (SFleb (SFabs (m_ b c)) (tol_ b t)).
    change (eqb fb (lit 0 0)) with (SFeqb fb (lit 0 0 : f64)).
    rewrite leb_val, EM, eqb_val, E0 by assumption.
    destruct (Req_bool_spec (fval fb) 0) as [Z|NZ].
    { rewrite orb_true_r. left. exists b. split; [reflexivity|]. split; [exact Ib|]. exists fb. split; [exact Eb|]. split; [exact Ffb|]. left. exact Z. }
    rewrite orb_false_r. pose proof (Rabs_pos_lt _ NZ) as Pfb.
    assert (Op' : opposite64 fb fc).
    { destruct Op as [Op|[Z|Z]]; [exact Op|elim NZ; exact Z|]. rewrite Z, Rabs_R0 in Lbc. lra. }
    destruct (Rle_bool_spec (Rabs (fval (m_ b c))) (fval (tol_ b t))) as [L|L].
    { left. exists b. split; [reflexivity|]. split; [exact Ib|]. exists fb. split; [exact Eb|]. split; [exact Ffb|]. right.
      exists c, fc. split; [exact Ic|]. split; [exact Ec|]. split; [exact Ffc|]. split; [exact Op'|]. split; [exact Lbc|].
      exact (stop_near b c t Fb Fc Ft Lb Lc Lt L). }
    right.
    destruct (choose_ok a b c fa fb fc d e (m_ b c) (tol_ b t) Fa Fb Fc Ffa Ffb Ffc Fm FT NZ Lbc Lm) as (d' & e' & -> & Fd & Sd & Bd).
    cbn [bind].
    pose proof (step_ok b c t Fb Fc Ft Lb Lc Lt L d' Fd Sd Bd) as ST. cbv zeta in ST.
    change (ltb (tol_ b t) (fabs d')) with (SFltb (tol_ b t) (SFabs d')).
    change (ltb (lit 0 0) (m_ b c)) with (SFltb (lit 0 0 : f64) (m_ b c)).
    change (add b d') with (sf_add b d'). change (add b (tol_ b t)) with (sf_add b (tol_ b t)).
    change (sub b (tol_ b t)) with (sf_sub b (tol_ b t)).
    set (z := if SFltb (tol_ b t) (SFabs d') then sf_add b d'
             else if SFltb (lit 0 0 : f64) (m_ b c) then sf_add b (tol_ b t) else sf_sub b (tol_ b t)) in *.
    clearbody z. destruct ST as (Fz' & Bz & Dc & Db).
    assert (Iz : inside z). { split; [exact Fz'|]. destruct Ib as [_ Ib]. destruct Ic as [_ Ic]. destruct Bz; lra. }
    destruct (Hf z Fz' (proj2 Iz)) as (fz & Ez & Ffz). rewrite Ez. cbn [bind].
    change (ltb (lit 0 0) fz) with (SFltb (lit 0 0 : f64) fz). change (ltb (lit 0 0) fc) with (SFltb (lit 0 0 : f64) fc).
    change (leb fz (lit 0 0)) with (SFleb fz (lit 0 0 : f64)). change (leb fc (lit 0 0)) with (SFleb fc (lit 0 0 : f64)).
    rewrite !ltb_val, !leb_val, E0 by assumption.
    destruct ((Rlt_bool 0 (fval fz) && Rlt_bool 0 (fval fc)) || (Rle_bool (fval fz) 0 && Rle_bool (fval fc) 0)) eqn:ET.
    - eexists. split; [reflexivity|]. cbn [ba bb bc bfa bfb bfc]. split; [|exact Db].
      split; [exact Fb|]. split; [exact Iz|]. split; [exact Ib|]. split; [exact Ffb|]. split; [exact Ffz|]. split; [exact Ffb|].
      split; [exact Ez|]. split; [exact Eb|]. left.
      unfold opposite64 in *.
      destruct (Rlt_bool_spec 0 (fval fz)), (Rlt_bool_spec 0 (fval fc)), (Rle_bool_spec (fval fz) 0), (Rle_bool_spec (fval fc) 0);
        try discriminate ET; lra.
    - eexists. split; [reflexivity|]. cbn [ba bb bc bfa bfb bfc]. split; [|exact Dc].
      split; [exact Fb|]. split; [exact Iz|]. split; [exact Ic|]. split; [exact Ffb|]. split; [exact Ffz|]. split; [exact Ffc|].
      split; [exact Ez|]. split; [exact Ec|]. left.
      unfold opposite64 in *.
      destruct (Rlt_bool_spec 0 (fval fz)), (Rlt_bool_spec 0 (fval fc)), (Rle_bool_spec (fval fz) 0), (Rle_bool_spec (fval fc) 0);
        try discriminate ET; lra.
  Qed.

  Lemma loop_ok fuel : forall st : @bstate f64, inv st -> Rabs (fval (bc st) - fval (bb st)) <= fval t / 5 * INR fuel ->
    exists x, loop (S fuel) (brent_body f t) st = Ok x /\ final x.
  Proof.
    pose proof (t_pos t Lt) as Tp.
    induction fuel as [|n IH]; intros st Hi Hd.
    - destruct (body_ok st Hi) as [(x & E & Hx)|(st' & E & Hi' & Hd')].
      + exists x. cbn [loop]. rewrite E. split; [reflexivity|exact Hx].
      + exfalso. cbn [INR] in Hd. pose proof (Rabs_pos (fval (bc st') - fval (bb st'))). lra.
    - destruct (body_ok st Hi) as [(x & E & Hx)|(st' & E & Hi' & Hd')].
      + exists x. change (loop (S (S n)) (brent_body f t) st) with (bind (brent_body f t st) (fun r => match r with inl s' => loop (S n) (brent_body f t) s' | inr a => Ok a end)).
        rewrite E. split; [reflexivity|exact Hx].
      + destruct (IH st' Hi') as (x & Ex & Hx). { rewrite S_INR in Hd. lra. }
        exists x. change (loop (S (S n)) (brent_body f t) st) with (bind (brent_body f t st) (fun r => match r with inl s' => loop (S n) (brent_body f t) s' | inr a => Ok a end)).
        rewrite E. split; [exact Ex|exact Hx].
  Qed.

  Lemma not_pos_mul x y : finite64 x -> finite64 y -> fval x * fval y <= 0 -> SFltb (lit 0 0 : f64) (sf_mul x y) = false.
  Proof.
    intros Fx Fy H. destruct fl_zero as [Fz E0].
    destruct (SFltb (lit 0 0 : f64) (sf_mul x y)) eqn:E; [|reflexivity]. exfalso.
    pose proof (mul_gt _ _ _ Fz Fx Fy E) as G. rewrite E0 in G. lra.
  Qed.

  Lemma finite_not_nan (x : f64) : finite64 x -> isnan x = false.
  Proof. destruct x; intros F; try reflexivity; elim F. Qed.

  Theorem brent_ok fa fb fuel : f A = Ok fa -> f B = Ok fb -> fval A <= fval B -> fval fa * fval fb <= 0 ->
    5 * (fval B - fval A) / fval t + 1 <= INR fuel -> exists x, brent f fuel A B t = Ok x /\ final x.
  Proof.
    intros Ea Eb AB H Hn. pose proof (t_pos t Lt) as Tp.
    destruct (Hf A FA ltac:(lra)) as (fa' & Ea' & Ffa). assert (fa' = fa) by congruence. subst fa'.
    destruct (Hf B FB ltac:(lra)) as (fb' & Eb' & Ffb). assert (fb' = fb) by congruence. subst fb'.
    unfold brent. rewrite (finite_not_nan A FA), (finite_not_nan B FB). cbn [orb].
    change (ltb B A) with (SFltb B A). rewrite ltb_val, Rlt_bool_false by assumption.
    rewrite Ea, Eb. cbn [bind].
    change (ltb (lit 0 0) (mul fa fb)) with (SFltb (lit 0 0 : f64) (sf_mul fa fb)). rewrite (not_pos_mul fa fb Ffa Ffb H).
    assert (D0 : 0 <= 5 * (fval B - fval A) / fval t).
    { unfold Rdiv. apply Rmult_le_pos; [lra|]. left. apply Rinv_0_lt_compat. exact Tp. }
    destruct fuel as [|n]; [cbn [INR] in Hn; lra|]. rewrite S_INR in Hn.
    apply loop_ok.
    - unfold inv. cbn [ba bb bc bfa bfb bfc].
      split; [exact FA|]. split; [split; [exact FB|lra]|]. split; [split; [exact FA|lra]|]. split; [exact Ffa|]. split; [exact Ffb|].
      split; [exact Ffa|]. split; [exact Eb|]. split; [exact Ea|].
      unfold opposite64. destruct (Rtotal_order (fval fa) 0) as [P|[P|P]]; [|tauto|].
      + destruct (Rtotal_order (fval fb) 0) as [Q|[Q|Q]]; [exfalso; nra|tauto|left; left; lra].
      + destruct (Rtotal_order (fval fb) 0) as [Q|[Q|Q]]; [left; right; lra|tauto|exfalso; nra].
    - cbn [bb bc]. rewrite Rabs_minus_sym, Rabs_pos_eq by lra.
      assert (5 * (fval B - fval A) / fval t <= INR n) by lra.
      apply Rmult_le_reg_l with (5 * / fval t); [apply Rmult_lt_0_compat; [lra|apply Rinv_0_lt_compat; exact Tp]|].
      replace (5 * / fval t * (fval t / 5 * INR n)) with (INR n) by (field; lra).
      replace (5 * / fval t * (fval B - fval A)) with (5 * (fval B - fval A) / fval t) by (unfold Rdiv; ring). lra.
  Qed.
End Loop.
