(** * Rounding of the slopes of the PCHIP interpolant *)
From Coq Require Import ZArith Reals Lra Lia Bool SpecFloat List Psatz.
From Flocq Require Import Core BinarySingleNaN.
From Verif Require Import Num SF Res M_ppinterp S_float S_interp P_float P_fl P_brent64 P_linear64 P_pchip P_pchip64.
Import ListNotations.
Local Open Scope R_scope.
#[local] Existing Instance P_float.prec_pos.
#[local] Existing Instance P_float.prec_max.

(** ** Ranges of magnitudes *)
Definition rng (a b : Z) (v : R) : Prop := powerRZ 2 a <= Rabs v <= powerRZ 2 b.
Lemma rng_mono a b c d v : rng a b v -> (c <= a)%Z -> (b <= d)%Z -> rng c d v.
Proof. intros [H1 H2] A B. split; eapply Rle_trans; [apply pow2_le; exact A|exact H1|exact H2|apply pow2_le; exact B]. Qed.
Lemma rng_normal a b v : rng a b v -> (-900 <= a)%Z -> (b <= 900)%Z -> normal v.
Proof. intros H A B. exact (rng_mono _ _ _ _ _ H A B). Qed.
Lemma rng_nz a b v : rng a b v -> v <> 0.
Proof. intros [H _] Z. rewrite Z, Rabs_R0 in H. pose proof (pow2_pos a). lra. Qed.
Lemma rng_inv a b v : rng a b v -> rng (- b) (- a) (/ v).
Proof.
  intros H. pose proof (rng_nz _ _ _ H) as N. destruct H as [H1 H2]. unfold rng. rewrite Rabs_inv.
  assert (E : forall z, powerRZ 2 (- z) = / powerRZ 2 z) by (intros z; rewrite powerRZ_neg', ?powerRZ_inv'; reflexivity).
  rewrite !E. pose proof (pow2_pos a). split; apply Rinv_le; lra.
Qed.
Lemma rng_mul a b c d v w : rng a b v -> rng c d w -> rng (a + c) (b + d) (v * w).
Proof.
  intros [H1 H2] [H3 H4]. unfold rng. rewrite Rabs_mult, <- !pow2_mul. pose proof (pow2_pos a). pose proof (pow2_pos c).
  split; apply Rmult_le_compat; try apply Rabs_pos; lra.
Qed.
Lemma rng_div a b c d v w : rng a b v -> rng c d w -> rng (a - d) (b - c) (v / w).
Proof. intros H1 H2. exact (rng_mul _ _ _ _ _ _ H1 (rng_inv _ _ _ H2)). Qed.
Lemma rng_add a b v w : rng a b v -> rng a b w -> 0 <= v * w -> rng a (b + 1) (v + w).
Proof.
  intros [H1 H2] [H3 H4] P. assert (E : Rabs (v + w) = Rabs v + Rabs w).
  { unfold Rabs. destruct (Rcase_abs v), (Rcase_abs w), (Rcase_abs (v + w)); try lra; nra. }
  unfold rng. rewrite E, <- pow2_mul. simpl (powerRZ 2 1). pose proof (pow2_pos a). pose proof (pow2_pos b). lra.
Qed.

(** ** Signs *)
Lemma sign64 (x : f64) : finite64 x -> sign x = (if Rlt_dec 0 (fval x) then one else if Rlt_dec (fval x) 0 then lit (-1) 0 else zero : f64).
Proof.
  intros F. unfold sign. replace (isnan x) with false by (destruct x; [reflexivity|elim F|elim F|reflexivity]).
  change (ltb zero x) with (SFltb (lit 0 0 : f64) x). change (ltb x zero) with (SFltb x (lit 0 0 : f64)).
  rewrite !ltb_val by (try exact F; apply fl_zero). rewrite (proj2 fl_zero).
  destruct (Rlt_bool_spec 0 (fval x)), (Rlt_dec 0 (fval x)); try lra; try reflexivity.
  destruct (Rlt_bool_spec (fval x) 0), (Rlt_dec (fval x) 0); try lra; reflexivity.
Qed.
Lemma sign_eqb64 (x y : f64) : finite64 x -> finite64 y ->
  eqb (sign x) (sign y) = true <-> 0 < fval x * fval y \/ (fval x = 0 /\ fval y = 0).
Proof.
  intros Fx Fy. rewrite !sign64 by assumption.
  destruct (Rlt_dec 0 (fval x)), (Rlt_dec 0 (fval y)); try destruct (Rlt_dec (fval x) 0); try destruct (Rlt_dec (fval y) 0);
  (match goal with |- ?b = true <-> _ => let v := eval vm_compute in b in change b with v end);
  split; intros H; try reflexivity; try discriminate; try lra; try (left; nra); try nra.
Qed.
Lemma sign_mul64 (x y : f64) : finite64 x -> finite64 y -> ltb (lit 0 0) (mul (sign x) (sign y)) = true <-> 0 < fval x * fval y.
Proof.
  intros Fx Fy. rewrite !sign64 by assumption.
  destruct (Rlt_dec 0 (fval x)), (Rlt_dec 0 (fval y)); try destruct (Rlt_dec (fval x) 0); try destruct (Rlt_dec (fval y) 0);
  (match goal with |- ?b = true <-> _ => let v := eval vm_compute in b in change b with v end);
  split; intros H; try reflexivity; try discriminate; try lra; try nra.
Qed.

(** ** Secants *)
Definition T64 : R := powerRZ 2 (-700).
Lemma T64_pos : 0 < T64. Proof. apply pow2_pos. Qed.

Record secant64 (h dl : R) (fh fdl : f64) : Prop := mksec {
  s_h : rng (-60) 60 h;
  s_hpos : 0 < h;
  s_fh : rl (101 / 100) fh h;
  s_fin : finite64 fdl;
  s_dl : Rabs dl <= powerRZ 2 160;
  s_or : (T64 <= Rabs dl /\ rl (304 / 100) fdl dl) \/ (Rabs dl < T64 /\ Rabs (fval fdl) <= 2 * T64)
}.

Lemma secant_round (Xi Xj Yi Yj : f64) M : finite64 Xi -> finite64 Xj -> finite64 Yi -> finite64 Yj ->
  powerRZ 2 (-60) <= fval Xj - fval Xi <= powerRZ 2 60 -> Rabs (fval Yi) <= M -> Rabs (fval Yj) <= M -> M <= powerRZ 2 90 ->
  secant64 (fval Xj - fval Xi) ((fval Yj - fval Yi) / (fval Xj - fval Xi)) (sub Xj Xi : f64) (div (sub Yj Yi) (sub Xj Xi) : f64).
Proof.
  intros F1 F2 F3 F4 Hh HY1 HY2 HM. set (h := fval Xj - fval Xi) in *. set (D := fval Yj - fval Yi).
  pose proof (pow2_pos (-60)) as pp. assert (hp : 0 < h) by lra.
  assert (Rh : rng (-60) 60 h) by (unfold rng; rewrite Rabs_pos_eq by lra; exact Hh).
  assert (Nh : sf_sub Xj Xi = sub Xj Xi :> f64) by reflexivity.
  assert (A : Rabs h <= big64) by (destruct Rh as [_ Q]; eapply Rle_trans; [exact Q|unfold big64; apply pow2_le; lia]).
  pose proof (sf_sub_near Xj Xi F2 F1 A) as Eh. fold h in Eh. rewrite Nh in Eh.
  assert (Rfh : rl (101 / 100) (sub Xj Xi : f64) h).
  { replace (101 / 100) with (0 + 101 / 100) by lra. apply (near_rl _ h h 0 0 Eh); [ring|rewrite Rabs_R0; lra|lra|apply (rng_normal _ _ _ Rh); lia]. }
  assert (BD : Rabs D <= powerRZ 2 91).
  { unfold D. apply Rle_trans with (powerRZ 2 1 * powerRZ 2 90); [|rewrite pow2_mul; apply pow2_le; lia]. simpl (powerRZ 2 1).
    apply Rabs_le_inv in HY1. apply Rabs_le_inv in HY2. apply Rabs_le. lra. }
  assert (A2 : Rabs D <= big64) by (eapply Rle_trans; [exact BD|unfold big64; apply pow2_le; lia]).
  pose proof (sf_sub_near Yj Yi F4 F3 A2) as Ed. fold D in Ed. change (sf_sub Yj Yi) with (sub Yj Yi : f64) in Ed.
  set (fh := sub Xj Xi : f64) in *. set (fd := sub Yj Yi : f64) in *. clearbody fh fd.
  assert (Bdl : Rabs (D / h) <= powerRZ 2 160).
  { unfold Rdiv. rewrite Rabs_mult. pose proof (rng_inv _ _ _ Rh) as [_ Q].
    apply Rle_trans with (powerRZ 2 91 * powerRZ 2 (- -60)); [|rewrite pow2_mul; apply pow2_le; lia].
    apply Rmult_le_compat; try apply Rabs_pos; assumption. }
  assert (ED : D = D / h * h) by (field; lra).
  destruct (Rle_or_lt T64 (Rabs (D / h))) as [L|L].
  - assert (Rdl : rng (-700) 160 (D / h)) by (split; assumption).
    assert (RD : rng (-760) 220 D) by (rewrite ED; apply (rng_mul _ _ _ _ _ _ Rdl Rh)).
    assert (Rfd : rl (101 / 100) fd D).
    { replace (101 / 100) with (0 + 101 / 100) by lra. apply (near_rl _ D D 0 0 Ed); [ring|rewrite Rabs_R0; lra|lra|apply (rng_normal _ _ _ RD); lia]. }
    destruct (rl_div (101 / 100) (101 / 100) fd D fh h Rfd Rfh ltac:(lra) ltac:(lra) ltac:(lra) (rng_normal _ _ _ Rdl ltac:(lia) ltac:(lia))) as [R3 _].
    constructor; try assumption; [apply R3|]. left. split; [exact L|]. apply (rl_mono (101 / 100 + 101 / 100 + 102 / 100)); [lra|exact R3].
  - destruct Rfh as [Ffh (r & Efh & Br)]. pose proof (small_r _ _ Br ltac:(lra)) as Sr.
    destruct Ed as [Ffd Ed]. pose proof T64_pos as tp. pose proof eta64_pos as ep. pose proof u64_pos as up.
    assert (E60 : eta64 <= / 100 * (T64 * powerRZ 2 (-60))).
    { unfold T64, eta64. rewrite pow2_mul. apply Rle_trans with (powerRZ 2 (-7) * powerRZ 2 (-700 + -60)).
      - rewrite pow2_mul. apply pow2_le. lia.
      - apply Rmult_le_compat_r; [left; apply pow2_pos|]. simpl. lra. }
    assert (E0 : eta64 <= / 100 * (T64 * h)).
    { eapply Rle_trans; [exact E60|]. apply Rmult_le_compat_l; [lra|]. apply Rmult_le_compat_l; lra. }
    assert (E1 : eta64 <= / 100 * T64).
    { eapply Rle_trans; [exact E60|]. apply Rmult_le_compat_l; [lra|]. rewrite <- (Rmult_1_r T64) at 2. apply Rmult_le_compat_l; [lra|].
      change 1 with (powerRZ 2 0). apply pow2_le. lia. }
    assert (DT : Rabs D <= T64 * h) by (rewrite ED, Rabs_mult, (Rabs_pos_eq h) by lra; apply Rmult_le_compat_r; lra).
    assert (Bd : Rabs (fval fd) <= 102 / 100 * (T64 * h)).
    { replace (fval fd) with (D + (fval fd - D)) by ring. eapply Rle_trans; [apply Rabs_triang|].
      assert (u64 * Rabs D <= u64 * (T64 * h)) by (apply Rmult_le_compat_l; lra). pose proof (Rmult_lt_0_compat _ _ tp hp). rewrite u64_val in *. lra. }
    assert (Nz : fval fh <> 0) by (rewrite Efh; apply Rmult_integral_contrapositive_currified; lra).
    assert (Bq : Rabs (fval fd / fval fh) <= 103 / 100 * T64).
    { unfold Rdiv. rewrite Rabs_mult, Rabs_inv, Efh, Rabs_mult, (Rabs_pos_eq h), (Rabs_pos_eq (1 + r)) by lra.
      assert (P : 0 < h * (1 + r)) by (apply Rmult_lt_0_compat; lra).
      apply Rmult_le_reg_r with (h * (1 + r)); [exact P|]. rewrite Rmult_assoc, Rinv_l, Rmult_1_r by lra.
      eapply Rle_trans; [exact Bd|]. pose proof (Rmult_lt_0_compat _ _ tp hp) as Th.
      replace (103 / 100 * T64 * (h * (1 + r))) with (103 / 100 * (T64 * h) * (1 + r)) by ring.
      assert (103 / 100 * (T64 * h) * (1 - / 1000000) <= 103 / 100 * (T64 * h) * (1 + r)) by (apply Rmult_le_compat_l; lra). lra. }
    assert (TB : T64 <= / 4) by (unfold T64; apply Rle_trans with (powerRZ 2 (-2)); [apply pow2_le; lia|simpl; lra]).
    destruct (sf_div_near fd fh Ffd Ffh Nz) as [Fq Eq].
    { pose proof big_pos. lra. }
    change (sf_div fd fh) with (div fd fh : f64) in *.
    constructor; try assumption.
    + split; [exact Ffh|]. exists r. split; assumption.
    + right. split; [exact L|]. replace (fval (div fd fh : f64)) with (fval fd / fval fh + (fval (div fd fh : f64) - fval fd / fval fh)) by ring.
      eapply Rle_trans; [apply Rabs_triang|].
      assert (u64 * Rabs (fval fd / fval fh) <= u64 * (103 / 100 * T64)) by (apply Rmult_le_compat_l; lra). rewrite u64_val in *. lra.
Qed.

(** what the computed slope fd has to satisfy: it is d up to 59 units of the secant dl *)
Definition slope64 (fd : f64) (d dl : R) : Prop := finite64 fd /\ Rabs (fval fd - d) <= 59 * (u64 * Rabs dl) + 30 * T64.
(** ** Interior slopes *)
Lemma Bsign_val (z : fl64) : B2R z <> 0 -> Bsign z = Rlt_bool (B2R z) 0.
Proof.
  intros Hz. destruct z as [s|s| |s m e Bd]; try (elim Hz; reflexivity).
  cbn [Bsign B2R]. destruct s; cbn [cond_Zopp]; symmetry; [apply Rlt_bool_true, F2R_lt_0|apply Rlt_bool_false, Rlt_le, F2R_gt_0]; reflexivity.
Qed.
Lemma div_cases (x y : f64) : finite64 x -> finite64 y -> fval y <> 0 -> 0 < fval x ->
  (finite64 (sf_div x y) /\ fval (sf_div x y) = rnd (fval x / fval y)) \/ sf_div x y = S754_infinity (Rlt_bool (fval y) 0).
Proof.
  intros Fx Fy N P. destruct (Rlt_or_le (Rabs (rnd (fval x / fval y))) (bpow radix2 1024)) as [L|L].
  - left. apply div_val; assumption.
  - right. destruct (finite64_B _ Fx) as (bx & <- & Hx & Ex). destruct (finite64_B _ Fy) as (b & <- & Hy & Ey).
    rewrite <- Ex, <- Ey in *. rewrite div_equiv.
    generalize (Bdiv_correct 53 1024 _ _ mode_NE bx b N). rewrite Rlt_bool_false by exact L. intros E. rewrite E.
    rewrite (Bsign_val bx) by lra. rewrite (Bsign_val b N), (Rlt_bool_false (B2R bx) 0) by lra. rewrite xorb_false_l. reflexivity.
Qed.
Lemma add_cases (x y : f64) : finite64 x -> finite64 y -> fval x <> 0 ->
  (finite64 (sf_add x y) /\ fval (sf_add x y) = rnd (fval x + fval y)) \/ sf_add x y = S754_infinity (Rlt_bool (fval x) 0).
Proof.
  intros Fx Fy N. destruct (Rlt_or_le (Rabs (rnd (fval x + fval y))) (bpow radix2 1024)) as [L|L].
  - left. apply add_val; assumption.
  - right. destruct (finite64_B _ Fx) as (bx & <- & Hx & Ex). destruct (finite64_B _ Fy) as (b & <- & Hy & Ey).
    rewrite <- Ex, <- Ey in *. rewrite add_equiv.
    generalize (Bplus_correct 53 1024 _ _ mode_NE bx b Hx Hy). rewrite Rlt_bool_false by exact L. intros (E & _). rewrite E.
    rewrite (Bsign_val bx N). reflexivity.
Qed.

Lemma rnd_abs_ge x y : finite64 y -> Rabs (fval y) <= Rabs x -> Rabs (fval y) <= Rabs (rnd x).
Proof.
  intros F H.
  destruct (SFabs_exact y F) as [FA EA]. rewrite <- EA in *.
  destruct (Rle_or_lt 0 x) as [P|P].
  - rewrite (Rabs_pos_eq x) in H by exact P. pose proof (fval_le_rnd x (SFabs y) FA H) as Q. eapply Rle_trans; [exact Q|apply Rle_abs].
  - rewrite (Rabs_left x) in H by exact P. destruct (SFopp_exact _ FA) as [FO EO].
    pose proof (rnd_le_fval x (SFopp (SFabs y)) FO ltac:(rewrite EO; lra)) as Q. rewrite EO in Q.
    rewrite <- Rabs_Ropp. eapply Rle_trans; [|apply Rle_abs]. lra.
Qed.

(** the sum of two quotients with the same sign is infinite or at least as large as both *)
Lemma sum_cases (w1 w2 a c : f64) : finite64 w1 -> finite64 w2 -> finite64 a -> finite64 c -> 0 < fval w1 -> 0 < fval w2 -> 0 < fval a * fval c ->
  fval w1 / fval a <> 0 -> rnd (fval w1 / fval a) <> 0 -> rnd (fval w2 / fval c) <> 0 ->
  (exists s, sf_add (sf_div w1 a) (sf_div w2 c) = S754_infinity s)
  \/ (finite64 (sf_add (sf_div w1 a) (sf_div w2 c)) /\ Rabs (rnd (fval w1 / fval a)) <= Rabs (fval (sf_add (sf_div w1 a) (sf_div w2 c)))
      /\ Rabs (rnd (fval w2 / fval c)) <= Rabs (fval (sf_add (sf_div w1 a) (sf_div w2 c)))).
Proof.
  intros F1 F2 Fa Fc P1 P2 Pac Nq N1 N2.
  assert (Na : fval a <> 0) by (intros Z; rewrite Z in Pac; lra). assert (Nc : fval c <> 0) by (intros Z; rewrite Z in Pac; lra).
  assert (Sg : Rlt_bool (fval c) 0 = Rlt_bool (fval a) 0).
  { destruct (Rlt_bool_spec (fval a) 0); [apply Rlt_bool_true; nra|apply Rlt_bool_false; nra]. }
  destruct (div_cases w1 a F1 Fa Na P1) as [[G1 E1]|E1]; destruct (div_cases w2 c F2 Fc Nc P2) as [[G2 E2]|E2].
  - destruct (add_cases (sf_div w1 a) (sf_div w2 c) G1 G2) as [[G E]|E].
    + rewrite E1. exact N1.
    + right. split; [exact G|]. rewrite E, <- E1, <- E2.
      assert (Same : 0 <= fval (sf_div w1 a) * fval (sf_div w2 c)).
      { rewrite E1, E2. destruct (Rle_or_lt 0 (fval a)) as [Q|Q].
        - assert (0 <= fval w1 / fval a) by (apply Rmult_le_pos; [lra|left; apply Rinv_0_lt_compat; lra]).
          assert (0 < fval c) by nra.
          assert (0 <= fval w2 / fval c) by (apply Rmult_le_pos; [lra|left; apply Rinv_0_lt_compat; lra]).
          pose proof (rnd_mono _ _ H). pose proof (rnd_mono _ _ H1). rewrite rnd_zero in *. apply Rmult_le_pos; assumption.
        - assert (fval c < 0) by nra.
          assert (fval w1 / fval a <= 0) by (assert (/ fval a < 0) by (apply Rinv_lt_0_compat; lra); unfold Rdiv; nra).
          assert (fval w2 / fval c <= 0) by (assert (/ fval c < 0) by (apply Rinv_lt_0_compat; lra); unfold Rdiv; nra).
          pose proof (rnd_mono _ _ H0). pose proof (rnd_mono _ _ H1). rewrite rnd_zero in *. nra. }
      set (p := sf_div w1 a) in *. set (q := sf_div w2 c) in *.
      assert (A : Rabs (fval p + fval q) = Rabs (fval p) + Rabs (fval q)).
      { unfold Rabs. destruct (Rcase_abs (fval p)), (Rcase_abs (fval q)), (Rcase_abs (fval p + fval q)); try lra; nra. }
      pose proof (Rabs_pos (fval p)). pose proof (Rabs_pos (fval q)).
      split; apply rnd_abs_ge; try assumption; lra.
    + left. eexists. exact E.
  - left. rewrite E2. destruct (sf_div w1 a) as [s|s| |s m e]; try (elim G1); eexists; reflexivity.
  - left. rewrite E1. destruct (sf_div w2 c) as [s|s| |s m e]; try (elim G2); eexists; reflexivity.
  - left. rewrite E1, E2, Sg. exists (Rlt_bool (fval a) 0). destruct (Rlt_bool (fval a) 0); reflexivity.
Qed.

Lemma sdiv64 (x y : f64) : finite64 y -> fval y <> 0 -> sdiv x y = Ok (div x y : f64).
Proof.
  intros F N. unfold sdiv. change (eqb y zero) with (SFeqb y (S754_zero false)). rewrite sf_eqb_zero by assumption. reflexivity.
Qed.
Lemma rl_pos k z v : rl k z v -> 0 <= k <= 1000 -> 0 < v -> 99 / 100 * v <= fval z <= 101 / 100 * v.
Proof. intros [_ (r & -> & B)] Hk Hv. pose proof (small_r _ _ B Hk). nra. Qed.

Lemma fdl_bound h dl fh fdl : secant64 h dl fh fdl -> Rabs (fval fdl) <= powerRZ 2 161.
Proof.
  intros S. assert (E : powerRZ 2 161 = 2 * powerRZ 2 160) by (change 161%Z with (1 + 160)%Z; rewrite <- pow2_mul; simpl (powerRZ 2 1); ring).
  pose proof (pow2_pos 160). rewrite E. destruct (s_or _ _ _ _ S) as [[_ [_ (r & -> & B)]]|[_ H2]].
  - pose proof (small_r _ _ B ltac:(lra)). rewrite Rabs_mult, Rmult_comm. apply Rmult_le_compat; try apply Rabs_pos; [|apply S]. apply Rabs_le. lra.
  - eapply Rle_trans; [exact H2|]. apply Rmult_le_compat_l; [lra|]. unfold T64. apply pow2_le. lia.
Qed.

Section Mid.
  Variables (h0 h1 dl0 dl1 : R) (fh0 fh1 fdl0 fdl1 : f64).
  Hypothesis S0 : secant64 h0 dl0 fh0 fdl0.
  Hypothesis S1 : secant64 h1 dl1 fh1 fdl1.

  Let w1 := h0 + 2 * h1.
  Let w2 := 2 * h0 + h1.
  Let fw1 := add fh0 (mul (lit 2 0) fh1) : f64.
  Let fw2 := add (mul (lit 2 0) fh0) fh1 : f64.

  Lemma rl_two : rl 0 (lit 2 0 : f64) 2.
  Proof. destruct fl_two as [F E]. pose proof (rl_exact (lit 2 0 : f64) F) as H. rewrite E in H. exact H. Qed.
  Lemma rng_two : rng 0 2 2.
  Proof. unfold rng. rewrite Rabs_pos_eq by lra. simpl. lra. Qed.

  Lemma w1_ok : rl (305 / 100) fw1 w1 /\ rng (-60) 63 w1 /\ 0 < w1.
  Proof.
    pose proof (s_hpos _ _ _ _ S0) as P0. pose proof (s_hpos _ _ _ _ S1) as P1. pose proof (s_h _ _ _ _ S0) as R0. pose proof (s_h _ _ _ _ S1) as R1.
    pose proof (rng_mul _ _ _ _ _ _ rng_two R1) as R2.
    assert (RW : rng (-60) 63 w1).
    { unfold w1. apply (rng_add (-60) 62); [apply (rng_mono _ _ _ _ _ R0); lia|apply (rng_mono _ _ _ _ _ R2); lia|]. apply Rmult_le_pos; lra. }
    split; [|split; [exact RW|unfold w1; lra]].
    pose proof (rl_mul 0 (101 / 100) _ _ _ _ rl_two (s_fh _ _ _ _ S1) ltac:(lra) ltac:(lra) (rng_normal _ _ _ R2 ltac:(lia) ltac:(lia))) as M.
    apply (rl_mono (203 / 100 + 101 / 100)); [lra|]. apply rl_add; try lra.
    - apply (rl_mono (101 / 100)); [lra|apply S0].
    - apply (rl_mono (0 + 101 / 100 + 102 / 100)); [lra|exact M].
    - apply Rmult_le_pos; lra.
    - apply (rng_normal _ _ _ RW); lia.
  Qed.
  Lemma w2_ok : rl (305 / 100) fw2 w2 /\ rng (-60) 63 w2 /\ 0 < w2.
  Proof.
    pose proof (s_hpos _ _ _ _ S0) as P0. pose proof (s_hpos _ _ _ _ S1) as P1. pose proof (s_h _ _ _ _ S0) as R0. pose proof (s_h _ _ _ _ S1) as R1.
    pose proof (rng_mul _ _ _ _ _ _ rng_two R0) as R2.
    assert (RW : rng (-60) 63 w2).
    { unfold w2. apply (rng_add (-60) 62); [apply (rng_mono _ _ _ _ _ R2); lia|apply (rng_mono _ _ _ _ _ R1); lia|]. apply Rmult_le_pos; lra. }
    split; [|split; [exact RW|unfold w2; lra]].
    pose proof (rl_mul 0 (101 / 100) _ _ _ _ rl_two (s_fh _ _ _ _ S0) ltac:(lra) ltac:(lra) (rng_normal _ _ _ R2 ltac:(lia) ltac:(lia))) as M.
    apply (rl_mono (203 / 100 + 101 / 100)); [lra|]. apply rl_add; try lra.
    - apply (rl_mono (0 + 101 / 100 + 102 / 100)); [lra|exact M].
    - apply (rl_mono (101 / 100)); [lra|apply S1].
    - apply Rmult_le_pos; lra.
    - apply (rng_normal _ _ _ RW); lia.
  Qed.
  Lemma w12_ok : rl (407 / 100) (add fw1 fw2 : f64) (w1 + w2) /\ rng (-60) 64 (w1 + w2) /\ 0 < w1 + w2.
  Proof.
    destruct w1_ok as (L1 & R1 & P1). destruct w2_ok as (L2 & R2 & P2).
    assert (Q : 0 <= w1 * w2) by (apply Rmult_le_pos; lra).
    pose proof (rng_add _ _ _ _ R1 R2 Q) as R. split; [|split; [exact R|lra]].
    apply (rl_mono (305 / 100 + 101 / 100)); [lra|]. apply rl_add; try assumption; try lra. apply (rng_normal _ _ _ R); lia.
  Qed.

  Lemma slope_mid_bound : Rabs (slope_mid h0 h1 dl0 dl1) <= 3 * Rabs dl0 /\ Rabs (slope_mid h0 h1 dl0 dl1) <= 3 * Rabs dl1.
  Proof.
    destruct (slope_mid_lim h0 h1 dl0 dl1 (s_hpos _ _ _ _ S0) (s_hpos _ _ _ _ S1)) as [(a & Ha & Ea) (b & Hb & Eb)].
    split; [rewrite Ea|rewrite Eb]; rewrite Rabs_mult, Rabs_pos_eq by lra; apply Rmult_le_compat_r; try apply Rabs_pos; lra.
  Qed.

  Lemma mid_big : T64 <= Rabs dl0 -> T64 <= Rabs dl1 -> rl (304 / 100) fdl0 dl0 -> rl (304 / 100) fdl1 dl1 ->
    exists fd, pchip_mid fh0 fh1 fdl0 fdl1 = Ok fd /\ finite64 fd
      /\ Rabs (fval fd - slope_mid h0 h1 dl0 dl1) <= 14 * (u64 * Rabs (slope_mid h0 h1 dl0 dl1)).
  Proof.
    intros T0 T1 L0 L1. unfold pchip_mid. fold fw1 fw2.
    assert (Sg : 0 < fval fdl0 * fval fdl1 <-> 0 < dl0 * dl1).
    { destruct L0 as [_ (r & -> & Br)]. destruct L1 as [_ (s & -> & Bs)]. pose proof (small_r _ _ Br ltac:(lra)). pose proof (small_r _ _ Bs ltac:(lra)).
      replace (dl0 * (1 + r) * (dl1 * (1 + s))) with (dl0 * dl1 * ((1 + r) * (1 + s))) by ring.
      assert (0 < (1 + r) * (1 + s)) by (apply Rmult_lt_0_compat; lra). split; intros; [|apply Rmult_lt_0_compat; assumption].
      apply Rmult_lt_reg_r with ((1 + r) * (1 + s)); [assumption|lra]. }
    pose proof (sign_mul64 fdl0 fdl1 (proj1 L0) (proj1 L1)) as SM.
    unfold slope_mid. destruct (ltb (lit 0 0) (mul (sign fdl0) (sign fdl1))) eqn:EB.
    - pose proof (proj1 Sg (proj1 SM eq_refl)) as P. destruct (Rlt_dec 0 (dl0 * dl1)) as [_|C]; [|lra].
      assert (R0 : rng (-700) 160 dl0) by (split; [exact T0|apply S0]). assert (R1 : rng (-700) 160 dl1) by (split; [exact T1|apply S1]).
      destruct w1_ok as (A1 & B1 & C1). destruct w2_ok as (A2 & B2 & C2). destruct w12_ok as (A3 & B3 & C3).
      pose proof (rng_div _ _ _ _ _ _ B1 R0) as Q1. pose proof (rng_div _ _ _ _ _ _ B2 R1) as Q2.
      destruct (rl_div _ _ _ _ _ _ A1 L0 ltac:(lra) ltac:(lra) (rng_nz _ _ _ R0) (rng_normal _ _ _ Q1 ltac:(lia) ltac:(lia))) as [U1 N1].
      destruct (rl_div _ _ _ _ _ _ A2 L1 ltac:(lra) ltac:(lra) (rng_nz _ _ _ R1) (rng_normal _ _ _ Q2 ltac:(lia) ltac:(lia))) as [U2 N2].
      rewrite (sdiv64 fw1 fdl0 (proj1 L0) N1), (sdiv64 fw2 fdl1 (proj1 L1) N2). cbn [bind].
      assert (Pq : 0 <= w1 / dl0 * (w2 / dl1)).
      { assert (D0 : dl0 <> 0) by (apply (rng_nz _ _ _ R0)). assert (D1 : dl1 <> 0) by (apply (rng_nz _ _ _ R1)).
        replace (w1 / dl0 * (w2 / dl1)) with (w1 * w2 * / (dl0 * dl1)) by (field; split; assumption).
        apply Rmult_le_pos; [apply Rmult_le_pos; lra|left; apply Rinv_0_lt_compat; exact P]. }
      pose proof (rng_add _ _ _ _ Q1 Q2 Pq) as Q3.
      pose proof (rl_add _ _ _ _ _ U1 U2 ltac:(lra) Pq (rng_normal _ _ _ Q3 ltac:(lia) ltac:(lia))) as U3.
      pose proof (rng_div _ _ _ _ _ _ B3 Q3) as Q4.
      destruct (rl_div _ _ _ _ _ _ A3 U3 ltac:(lra) ltac:(lra) (rng_nz _ _ _ Q3) (rng_normal _ _ _ Q4 ltac:(lia) ltac:(lia))) as [U4 N4].
      rewrite (sdiv64 _ _ (proj1 U3) N4). eexists. split; [reflexivity|]. destruct U4 as [F4 (r & E4 & Br)]. split; [exact F4|].
      replace (3 * (h0 + h1) / ((h0 + 2 * h1) / dl0 + (2 * h0 + h1) / dl1)) with ((w1 + w2) / (w1 / dl0 + w2 / dl1)).
      2:{ unfold w1, w2. f_equal. ring. }
      set (d := (w1 + w2) / (w1 / dl0 + w2 / dl1)) in *. rewrite E4. replace (d * (1 + r) - d) with (r * d) by ring. rewrite Rabs_mult, <- Rmult_assoc.
      apply Rmult_le_compat_r; [apply Rabs_pos|]. pose proof u64_pos. lra.
    - destruct (Rlt_dec 0 (dl0 * dl1)) as [C|_].
      { exfalso. pose proof (proj2 SM (proj2 Sg C)). discriminate. }
      exists (lit 0 0 : f64). split; [reflexivity|]. split; [apply fl_zero|]. rewrite (proj2 fl_zero), Rminus_0_r, Rabs_R0. lra.
  Qed.

  Lemma mid_small : Rabs dl0 < T64 /\ Rabs (fval fdl0) <= 2 * T64 \/ Rabs dl1 < T64 /\ Rabs (fval fdl1) <= 2 * T64 ->
    exists fd, pchip_mid fh0 fh1 fdl0 fdl1 = Ok fd /\ finite64 fd /\ Rabs (fval fd - slope_mid h0 h1 dl0 dl1) <= 20 * T64.
  Proof.
    intros Sm. destruct slope_mid_bound as [D0 D1]. pose proof T64_pos as tp.
    assert (Bd : Rabs (slope_mid h0 h1 dl0 dl1) <= 3 * T64) by (destruct Sm as [[H _]|[H _]]; lra).
    enough (G : exists fd, pchip_mid fh0 fh1 fdl0 fdl1 = Ok fd /\ finite64 fd /\ Rabs (fval fd) <= 17 * T64).
    { destruct G as (fd & E & F & G). exists fd. split; [exact E|]. split; [exact F|]. unfold Rminus. eapply Rle_trans; [apply Rabs_triang|]. rewrite Rabs_Ropp. lra. }
    pose proof (s_fin _ _ _ _ S0) as F0. pose proof (s_fin _ _ _ _ S1) as F1.
    unfold pchip_mid. fold fw1 fw2. pose proof (sign_mul64 fdl0 fdl1 F0 F1) as SM.
    destruct (ltb (lit 0 0) (mul (sign fdl0) (sign fdl1))) eqn:EB.
    2:{ exists (lit 0 0 : f64). split; [reflexivity|]. split; [apply fl_zero|]. rewrite (proj2 fl_zero), Rabs_R0. lra. }
    pose proof (proj1 SM eq_refl) as P.
    assert (N0 : fval fdl0 <> 0) by (intros Z; rewrite Z in P; lra). assert (N1 : fval fdl1 <> 0) by (intros Z; rewrite Z in P; lra).
    rewrite (sdiv64 fw1 fdl0 F0 N0), (sdiv64 fw2 fdl1 F1 N1). cbn [bind].
    destruct w1_ok as (A1 & B1 & C1). destruct w2_ok as (A2 & B2 & C2). destruct w12_ok as (A3 & B3 & C3).
    pose proof (rl_pos _ _ _ A1 ltac:(lra) C1) as V1. pose proof (rl_pos _ _ _ A2 ltac:(lra) C2) as V2. pose proof (rl_pos _ _ _ A3 ltac:(lra) C3) as V3.
    assert (Q : forall (w : R) (fw fd : f64), rng (-60) 63 w -> 0 < w -> 99 / 100 * w <= fval fw -> fval fd <> 0 -> Rabs (fval fd) <= powerRZ 2 161 ->
       99 / 100 * (fval fw / Rabs (fval fd)) <= Rabs (rnd (fval fw / fval fd)) /\ 0 < fval fw / Rabs (fval fd)).
    { intros w fw fd [Lw _] Pw Lf Nd Ud. pose proof (Rabs_pos_lt _ Nd) as Pd. pose proof (pow2_pos (-60)) as pp. rewrite (Rabs_pos_eq w) in Lw by lra.
      set (z := fval fw / fval fd).
      assert (Ez : fval fw / Rabs (fval fd) = Rabs z) by (unfold z, Rdiv; rewrite Rabs_mult, Rabs_inv, (Rabs_pos_eq (fval fw)) by lra; reflexivity).
      assert (Pz : 0 < fval fw / Rabs (fval fd)) by (apply Rmult_lt_0_compat; [lra|apply Rinv_0_lt_compat; exact Pd]).
      assert (Lz : powerRZ 2 (-222) <= Rabs z).
      { rewrite <- Ez. apply Rmult_le_reg_r with (Rabs (fval fd)); [exact Pd|]. unfold Rdiv. rewrite Rmult_assoc, Rinv_l, Rmult_1_r by lra.
        apply Rle_trans with (powerRZ 2 (-222) * powerRZ 2 161); [apply Rmult_le_compat_l; [left; apply pow2_pos|exact Ud]|].
        rewrite pow2_mul. change (-222 + 161)%Z with (-1 + -60)%Z. rewrite <- pow2_mul. simpl (powerRZ 2 (-1)). lra. }
      rewrite Ez in *. split; [|exact Pz]. pose proof (rnd_err z) as Er. pose proof (Rabs_triang (rnd z) (- (rnd z - z))) as Tr.
      replace (rnd z + - (rnd z - z)) with z in Tr by ring. rewrite Rabs_Ropp in Tr.
      pose proof (tiny_eta 0 (-222) ltac:(lia)) as T. change (powerRZ 2 0) with 1 in T. rewrite u64_val in *. lra. }
    destruct (Q w1 fw1 fdl0 B1 C1 ltac:(lra) N0 (fdl_bound _ _ _ _ S0)) as [Q0 K0].
    destruct (Q w2 fw2 fdl1 B2 C2 ltac:(lra) N1 (fdl_bound _ _ _ _ S1)) as [Q1 K1]. clear Q.
    assert (R0 : rnd (fval fw1 / fval fdl0) <> 0) by (intros Z; rewrite Z, Rabs_R0 in Q0; lra).
    assert (R1 : rnd (fval fw2 / fval fdl1) <> 0) by (intros Z; rewrite Z, Rabs_R0 in Q1; lra).
    change (div fw1 fdl0 : f64) with (sf_div fw1 fdl0). change (div fw2 fdl1 : f64) with (sf_div fw2 fdl1).
    change (add (sf_div fw1 fdl0 : f64) (sf_div fw2 fdl1) : f64) with (sf_add (sf_div fw1 fdl0) (sf_div fw2 fdl1)).
    destruct (sum_cases fw1 fw2 fdl0 fdl1 (proj1 A1) (proj1 A2) F0 F1 ltac:(lra) ltac:(lra) P) as [(s & E)|(FW & W1 & W2)]; try assumption.
    - apply Rmult_integral_contrapositive_currified; [lra|apply Rinv_neq_0_compat; exact N0].
    - rewrite E. unfold sdiv. replace (eqb (S754_infinity s : f64) zero) with false by (destruct s; reflexivity).
      eexists. split; [reflexivity|]. destruct A3 as [FA _]. change (div (add fw1 fw2) (S754_infinity s : f64) : f64) with (sf_div (add fw1 fw2) (S754_infinity s)).
      destruct (add fw1 fw2) as [b|b| |b m e]; try (elim FA).
      + split; [exact I|]. change (Rabs 0 <= 17 * T64). rewrite Rabs_R0. lra.
      + split; [exact I|]. change (Rabs 0 <= 17 * T64). rewrite Rabs_R0. lra.
    - set (W := sf_add (sf_div fw1 fdl0) (sf_div fw2 fdl1)) in *. clearbody W.
      assert (LW : (w1 + w2) / (7 * T64) <= Rabs (fval W)).
      { assert (G : forall (w x y : R), 0 < w -> 99 / 100 * w <= x -> 0 < y <= 2 * T64 -> w1 + w2 <= 3 * w -> 99 / 100 * (x / y) <= Rabs (fval W) ->
            (w1 + w2) / (7 * T64) <= Rabs (fval W)).
        { intros w x y Pw Lx Hy Hw Hl. apply Rmult_le_reg_r with (7 * T64); [lra|]. unfold Rdiv. rewrite Rmult_assoc, Rinv_l, Rmult_1_r by lra.
          apply Rle_trans with (Rabs (fval W) * (7 / 2 * y)).
          - apply Rle_trans with (99 / 100 * (x / y) * (7 / 2 * y)); [|apply Rmult_le_compat_r; lra].
            replace (99 / 100 * (x / y) * (7 / 2 * y)) with (99 / 100 * (7 / 2) * x) by (field; lra). lra.
          - apply Rmult_le_compat_l; [apply Rabs_pos|lra]. }
        pose proof (s_hpos _ _ _ _ S0). pose proof (s_hpos _ _ _ _ S1). pose proof (Rabs_pos_lt _ N0). pose proof (Rabs_pos_lt _ N1).
        destruct Sm as [[_ H3]|[_ H3]].
        - apply (G w1 (fval fw1) (Rabs (fval fdl0))); try lra. unfold w1, w2. lra.
        - apply (G w2 (fval fw2) (Rabs (fval fdl1))); try lra. unfold w1, w2. lra. }
      assert (PW : 0 < (w1 + w2) / (7 * T64)) by (apply Rmult_lt_0_compat; [lra|apply Rinv_0_lt_compat; lra]).
      assert (NW : fval W <> 0) by (intros Z; rewrite Z, Rabs_R0 in LW; lra).
      rewrite (sdiv64 _ W FW NW). eexists. split; [reflexivity|].
      set (N := add fw1 fw2 : f64) in *.
      assert (Bq : Rabs (fval N / fval W) <= 8 * T64).
      { unfold Rdiv. rewrite Rabs_mult, Rabs_inv, (Rabs_pos_eq (fval N)) by lra. apply Rmult_le_reg_r with (Rabs (fval W)); [lra|].
        rewrite Rmult_assoc, Rinv_l, Rmult_1_r by lra. apply Rle_trans with (8 * T64 * ((w1 + w2) / (7 * T64))); [|apply Rmult_le_compat_l; lra].
        replace (8 * T64 * ((w1 + w2) / (7 * T64))) with (8 / 7 * (w1 + w2)) by (field; lra). lra. }
      assert (TB : T64 <= / 64) by (unfold T64; apply Rle_trans with (powerRZ 2 (-6)); [apply pow2_le; lia|simpl; lra]).
      destruct (sf_div_near N W (proj1 A3) FW NW) as [Fq Eq].
      { pose proof big_pos. lra. }
      change (sf_div N W) with (div N W : f64) in *. split; [exact Fq|].
      replace (fval (div N W : f64)) with (fval N / fval W + (fval (div N W : f64) - fval N / fval W)) by ring.
      eapply Rle_trans; [apply Rabs_triang|]. pose proof (tiny_eta 0 (-700) ltac:(lia)) as T. change (powerRZ 2 0) with 1 in T. fold T64 in T.
      assert (u64 * Rabs (fval N / fval W) <= u64 * (8 * T64)) by (apply Rmult_le_compat_l; [left; apply u64_pos|lra]). rewrite u64_val in *. lra.
  Qed.

  Lemma mid_round : exists fd, pchip_mid fh0 fh1 fdl0 fdl1 = Ok fd
    /\ slope64 fd (slope_mid h0 h1 dl0 dl1) dl0 /\ slope64 fd (slope_mid h0 h1 dl0 dl1) dl1.
  Proof.
    destruct slope_mid_bound as [D0 D1]. pose proof T64_pos as tp. pose proof u64_pos as up.
    pose proof (Rmult_le_pos _ _ (Rlt_le _ _ up) (Rabs_pos dl0)) as p0. pose proof (Rmult_le_pos _ _ (Rlt_le _ _ up) (Rabs_pos dl1)) as p1.
    assert (G : Rabs dl0 < T64 /\ Rabs (fval fdl0) <= 2 * T64 \/ Rabs dl1 < T64 /\ Rabs (fval fdl1) <= 2 * T64 \/
      (T64 <= Rabs dl0 /\ T64 <= Rabs dl1 /\ rl (304 / 100) fdl0 dl0 /\ rl (304 / 100) fdl1 dl1)).
    { destruct (s_or _ _ _ _ S0) as [[]|[]]; [|tauto]. destruct (s_or _ _ _ _ S1) as [[]|[]]; tauto. }
    destruct G as [G|[G|(G1 & G2 & G3 & G4)]].
    - destruct (mid_small (or_introl G)) as (fd & E & F & H). exists fd. split; [exact E|]. split; (split; [exact F|lra]).
    - destruct (mid_small (or_intror G)) as (fd & E & F & H). exists fd. split; [exact E|]. split; (split; [exact F|lra]).
    - destruct (mid_big G1 G2 G3 G4) as (fd & E & F & H). exists fd. split; [exact E|].
      assert (u64 * Rabs (slope_mid h0 h1 dl0 dl1) <= u64 * (3 * Rabs dl0)) by (apply Rmult_le_compat_l; lra).
      assert (u64 * Rabs (slope_mid h0 h1 dl0 dl1) <= u64 * (3 * Rabs dl1)) by (apply Rmult_le_compat_l; lra).
      split; (split; [exact F|lra]).
  Qed.
End Mid.
