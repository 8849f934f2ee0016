(** * Binary64: comparisons, infinities, monotonicity of rounding *)
From Coq Require Import ZArith Reals Bool SpecFloat Lia Lra Psatz.
From Flocq Require Import Core BinarySingleNaN Relative.
From Verif Require Import Num SF S_float P_float.
Open Scope R_scope.

#[local] Existing Instance P_float.prec_pos.
#[local] Existing Instance P_float.prec_max.

(** ** the binary64 numbers, NaN and infinities included *)
Definition valid64 (x : f64) : Prop := exists b : fl64, B2SF b = x.

Lemma valid_finite x : finite64 x -> valid64 x.
Proof. intros H. destruct (finite64_B _ H) as (b & E & _). exists b. exact E. Qed.

Lemma valid_cases x : valid64 x -> finite64 x \/ (exists s, x = S754_infinity s) \/ x = S754_nan.
Proof.
  intros (b & <-). destruct b as [s|s| |s m e B].
  - left. exact I.
  - right. left. exists s. reflexivity.
  - right. right. reflexivity.
  - left. exact (proj1 (B_finite64 (B754_finite s m e B) eq_refl)).
Qed.

Lemma valid_add x y : valid64 x -> valid64 y -> valid64 (sf_add x y).
Proof. intros (a & <-) (b & <-). rewrite add_equiv. eexists. reflexivity. Qed.
Lemma valid_sub x y : valid64 x -> valid64 y -> valid64 (sf_sub x y).
Proof. intros (a & <-) (b & <-). rewrite sub_equiv. eexists. reflexivity. Qed.
Lemma valid_mul x y : valid64 x -> valid64 y -> valid64 (sf_mul x y).
Proof. intros (a & <-) (b & <-). rewrite mul_equiv. eexists. reflexivity. Qed.
Lemma valid_div x y : valid64 x -> valid64 y -> valid64 (sf_div x y).
Proof. intros (a & <-) (b & <-). rewrite div_equiv. eexists. reflexivity. Qed.
Lemma valid_opp x : valid64 x -> valid64 (SFopp x).
Proof. intros (a & <-). exists (Bopp a). destruct a; reflexivity. Qed.

(** ** exact operations *)
Lemma SFabs_exact x : finite64 x -> finite64 (SFabs x) /\ fval (SFabs x) = Rabs (fval x).
Proof.
  intros F. destruct x as [s|s| |s m e].
  - split; [exact I|]. cbn [SFabs fval]. symmetry. exact Rabs_R0.
  - elim F.
  - elim F.
  - split; [exact F|]. unfold fval, SFabs.
    assert (P : 0 < powerRZ 2 e) by (apply powerRZ_lt; lra).
    assert (Q : 0 < IZR (Zpos m)) by (apply IZR_lt; reflexivity).
    assert (T : 0 < IZR (Zpos m) * powerRZ 2 e) by (apply Rmult_lt_0_compat; assumption).
    destruct s.
    + rewrite Rabs_left by lra. ring.
    + symmetry. apply Rabs_pos_eq. lra.
Qed.

(** ** comparisons *)
Lemma ltb_val x y : finite64 x -> finite64 y -> SFltb x y = Rlt_bool (fval x) (fval y).
Proof.
  intros Fx Fy. destruct (finite64_B _ Fx) as (bx & <- & Hx & Ex). destruct (finite64_B _ Fy) as (b & <- & Hy & Ey).
  rewrite <- Ex, <- Ey. exact (Bltb_correct 53 1024 bx b Hx Hy).
Qed.
Lemma leb_val x y : finite64 x -> finite64 y -> SFleb x y = Rle_bool (fval x) (fval y).
Proof.
  intros Fx Fy. destruct (finite64_B _ Fx) as (bx & <- & Hx & Ex). destruct (finite64_B _ Fy) as (b & <- & Hy & Ey).
  rewrite <- Ex, <- Ey. exact (Bleb_correct 53 1024 bx b Hx Hy).
Qed.
Lemma eqb_val x y : finite64 x -> finite64 y -> SFeqb x y = Req_bool (fval x) (fval y).
Proof.
  intros Fx Fy. destruct (finite64_B _ Fx) as (bx & <- & Hx & Ex). destruct (finite64_B _ Fy) as (b & <- & Hy & Ey).
  rewrite <- Ex, <- Ey. exact (Beqb_correct 53 1024 bx b Hx Hy).
Qed.

(** ** rounding *)
Lemma rnd_mono x y : x <= y -> rnd x <= rnd y.
Proof. apply round_le; [apply fexp_correct; reflexivity|apply valid_rnd_round_mode]. Qed.

Lemma rnd_fval x : finite64 x -> rnd (fval x) = fval x.
Proof.
  intros F. destruct (finite64_B _ F) as (b & _ & _ & <-).
  apply round_generic; [apply valid_rnd_round_mode|]. apply generic_format_B2R.
Qed.

Lemma fval_bound x : finite64 x -> Rabs (fval x) < bpow radix2 1024.
Proof. intros F. destruct (finite64_B _ F) as (b & _ & _ & <-). apply abs_B2R_lt_emax. Qed.

Lemma rnd_le_fval v x : finite64 x -> v <= fval x -> rnd v <= fval x.
Proof. intros F H. rewrite <- (rnd_fval x F). apply rnd_mono. exact H. Qed.
Lemma fval_le_rnd v x : finite64 x -> fval x <= v -> fval x <= rnd v.
Proof. intros F H. rewrite <- (rnd_fval x F). apply rnd_mono. exact H. Qed.

(** a real between two floats rounds to between them *)
Lemma rnd_between lo hi v : finite64 lo -> finite64 hi -> fval lo <= v <= fval hi ->
  fval lo <= rnd v <= fval hi /\ Rabs (rnd v) < bpow radix2 1024.
Proof.
  intros Fl Fh [H1 H2]. pose proof (fval_le_rnd v lo Fl H1) as A. pose proof (rnd_le_fval v hi Fh H2) as B.
  split; [split; assumption|].
  pose proof (fval_bound lo Fl) as C. pose proof (fval_bound hi Fh) as D. apply Rabs_lt_inv in C. apply Rabs_lt_inv in D.
  apply Rabs_lt. lra.
Qed.

(** ** values of the operations *)
Lemma add_val x y : finite64 x -> finite64 y -> Rabs (rnd (fval x + fval y)) < bpow radix2 1024 ->
  finite64 (sf_add x y) /\ fval (sf_add x y) = rnd (fval x + fval y).
Proof.
  intros Fx Fy H. destruct (finite64_B _ Fx) as (bx & <- & Hx & Ex). destruct (finite64_B _ Fy) as (b & <- & Hy & Ey).
  rewrite <- Ex, <- Ey in *. rewrite add_equiv.
  generalize (Bplus_correct 53 1024 _ _ mode_NE bx b Hx Hy). rewrite Rlt_bool_true by exact H.
  intros (E & F & _). destruct (B_finite64 _ F) as [A B]. split; [exact A|]. rewrite B. exact E.
Qed.
Lemma sub_val x y : finite64 x -> finite64 y -> Rabs (rnd (fval x - fval y)) < bpow radix2 1024 ->
  finite64 (sf_sub x y) /\ fval (sf_sub x y) = rnd (fval x - fval y).
Proof.
  intros Fx Fy H. destruct (finite64_B _ Fx) as (bx & <- & Hx & Ex). destruct (finite64_B _ Fy) as (b & <- & Hy & Ey).
  rewrite <- Ex, <- Ey in *. rewrite sub_equiv.
  generalize (Bminus_correct 53 1024 _ _ mode_NE bx b Hx Hy). rewrite Rlt_bool_true by exact H.
  intros (E & F & _). destruct (B_finite64 _ F) as [A B]. split; [exact A|]. rewrite B. exact E.
Qed.
Lemma mul_val x y : finite64 x -> finite64 y -> Rabs (rnd (fval x * fval y)) < bpow radix2 1024 ->
  finite64 (sf_mul x y) /\ fval (sf_mul x y) = rnd (fval x * fval y).
Proof.
  intros Fx Fy H. destruct (finite64_B _ Fx) as (bx & <- & Hx & Ex). destruct (finite64_B _ Fy) as (b & <- & Hy & Ey).
  rewrite <- Ex, <- Ey in *. rewrite mul_equiv.
  generalize (Bmult_correct 53 1024 _ _ mode_NE bx b). rewrite Rlt_bool_true by exact H.
  intros (E & F & _). rewrite Hx, Hy in F. destruct (B_finite64 _ F) as [A B]. split; [exact A|]. rewrite B. exact E.
Qed.
Lemma div_val x y : finite64 x -> finite64 y -> fval y <> 0 -> Rabs (rnd (fval x / fval y)) < bpow radix2 1024 ->
  finite64 (sf_div x y) /\ fval (sf_div x y) = rnd (fval x / fval y).
Proof.
  intros Fx Fy N H. destruct (finite64_B _ Fx) as (bx & <- & Hx & Ex). destruct (finite64_B _ Fy) as (b & <- & Hy & Ey).
  rewrite <- Ex, <- Ey in *. rewrite div_equiv.
  generalize (Bdiv_correct 53 1024 _ _ mode_NE bx b N). rewrite Rlt_bool_true by exact H.
  intros (E & F & _). rewrite Hx in F. destruct (B_finite64 _ F) as [A B]. split; [exact A|]. rewrite B. exact E.
Qed.

(** a product that overflows is an infinity with the sign of the exact product *)
Lemma mul_overflow x y : finite64 x -> finite64 y -> bpow radix2 1024 <= Rabs (rnd (fval x * fval y)) ->
  (0 < fval x * fval y /\ sf_mul x y = S754_infinity false) \/ (fval x * fval y < 0 /\ sf_mul x y = S754_infinity true).
Proof.
  intros Fx Fy H. destruct (finite64_B _ Fx) as (bx & <- & Hx & Ex). destruct (finite64_B _ Fy) as (b & <- & Hy & Ey).
  rewrite <- Ex, <- Ey in *. rewrite mul_equiv.
  generalize (Bmult_correct 53 1024 _ _ mode_NE bx b). rewrite Rlt_bool_false by exact H. intros E. rewrite E.
  assert (N : B2R bx * B2R b <> 0).
  { intro Z. rewrite Z, round_0, Rabs_R0 in H by apply valid_rnd_round_mode. pose proof (bpow_gt_0 radix2 1024). lra. }
  assert (S1 : forall z : fl64, B2R z <> 0 -> if Bsign z then B2R z < 0 else 0 < B2R z).
  { intros z Hz. destruct z as [s|s| |s m e Bd]; try (elim Hz; reflexivity).
    cbn [Bsign B2R]. destruct s; cbn [cond_Zopp]; [apply F2R_lt_0|apply F2R_gt_0]; reflexivity. }
  pose proof (S1 bx ltac:(intro Z; apply N; rewrite Z; ring)) as A. pose proof (S1 b ltac:(intro Z; apply N; rewrite Z; ring)) as B.
  destruct (Bsign bx), (Bsign b); cbn [xorb]; unfold binary_overflow; cbn [overflow_to_inf].
  - left. split; [nra|reflexivity].
  - right. split; [nra|reflexivity].
  - right. split; [nra|reflexivity].
  - left. split; [nra|reflexivity].
Qed.

(** a computed product above w is an exact product above w *)
Lemma mul_gt w x y : finite64 w -> finite64 x -> finite64 y -> SFltb w (sf_mul x y) = true -> fval w < fval x * fval y.
Proof.
  intros Fw Fx Fy H. destruct (Rlt_or_le (Rabs (rnd (fval x * fval y))) (bpow radix2 1024)) as [L|L].
  - destruct (mul_val x y Fx Fy L) as [Fm Em]. rewrite ltb_val, Em in H by assumption.
    destruct (Rlt_bool_spec (fval w) (rnd (fval x * fval y))) as [T|T]; [|discriminate].
    apply Rnot_le_lt. intro Le. pose proof (rnd_le_fval _ w Fw Le). lra.
  - destruct (mul_overflow x y Fx Fy L) as [[P E]|[P E]].
    + apply Rnot_le_lt. intro Le. pose proof (rnd_le_fval _ w Fw Le) as A.
      pose proof (fval_le_rnd (fval x * fval y) (S754_zero false) I ltac:(cbn [fval]; lra)) as B. cbn [fval] in B.
      rewrite Rabs_pos_eq in L by exact B. pose proof (fval_bound w Fw) as C. apply Rabs_lt_inv in C. lra.
    + rewrite E in H. destruct w as [[|]|[|]| |[|] m e]; try discriminate H; destruct Fw.
Qed.

Lemma ltb_inf_finite w : finite64 w -> SFltb w (S754_infinity false) = true.
Proof. intros F. destruct w as [[|]|[|]| |[|] m e]; try reflexivity; elim F. Qed.
Lemma ltb_minf w : SFltb w (S754_infinity true) = false.
Proof. destruct w as [[|]|[|]| |[|] m e]; reflexivity. Qed.
Lemma ltb_nan w : SFltb w S754_nan = false.
Proof. destruct w as [[|]|[|]| |[|] m e]; reflexivity. Qed.
Lemma inf_ltb w : SFltb (S754_infinity false) w = false.
Proof. destruct w as [[|]|[|]| |[|] m e]; reflexivity. Qed.
Lemma nan_ltb w : SFltb S754_nan w = false.
Proof. destruct w as [[|]|[|]| |[|] m e]; reflexivity. Qed.

(** subtraction of a number that is not negative does not increase *)
Lemma sub_abs_gt w W V : finite64 w -> valid64 W -> valid64 V ->
  SFltb w (sf_sub W (SFabs V)) = true -> SFltb w W = true /\ finite64 V.
Proof.
  intros Fw HW HV H. destruct (valid_cases _ HV) as [FV|[(s & ->)| ->]].
  - destruct (SFabs_exact V FV) as [FA EA]. split; [|exact FV].
    destruct (valid_cases _ HW) as [FW|[([|] & ->)| ->]].
    + pose proof (Rabs_pos (fval V)) as P.
      destruct (Rlt_or_le (Rabs (rnd (fval W - fval (SFabs V)))) (bpow radix2 1024)) as [L|L].
      * destruct (sub_val W (SFabs V) FW FA L) as [Fm Em]. rewrite ltb_val, Em in H by assumption. rewrite ltb_val by assumption.
        destruct (Rlt_bool_spec (fval w) (rnd (fval W - fval (SFabs V)))) as [T|T]; [|discriminate].
        apply Rlt_bool_true. eapply Rlt_le_trans; [exact T|]. apply rnd_le_fval; [exact FW|]. rewrite EA. lra.
      * (* overflow: the result is minus infinity *)
        exfalso. destruct (finite64_B _ FW) as (bx & <- & Hx & Ex). destruct (finite64_B _ FA) as (b & Eb & Hy & Ey).
        rewrite <- Eb in *. rewrite <- Ex, <- Ey in *. rewrite sub_equiv in H.
        generalize (Bminus_correct 53 1024 _ _ mode_NE bx b Hx Hy). rewrite Rlt_bool_false by exact L.
        intros [E S]. rewrite E in H.
        assert (B0 : 0 <= B2R b) by (rewrite EA; exact P).
        assert (N : B2R bx - B2R b < 0).
        { apply Rnot_le_lt. intro C. pose proof (abs_B2R_lt_emax 53 1024 bx) as D. apply Rabs_lt_inv in D.
          assert (G : rnd (B2R bx - B2R b) <= rnd (B2R bx)) by (apply rnd_mono; lra).
          rewrite Ex in G at 2. rewrite rnd_fval in G by exact FW. rewrite <- Ex in G.
          assert (Z0 : rnd 0 <= rnd (B2R bx - B2R b)) by (apply rnd_mono; exact C).
          rewrite round_0 in Z0 by apply valid_rnd_round_mode. rewrite Rabs_pos_eq in L by exact Z0. lra. }
        assert (Sb : Bsign bx = true).
        { destruct (Bsign bx) eqn:Q; [reflexivity|]. exfalso. cbn [negb] in S. 
          assert (0 <= B2R bx).
          { destruct bx as [s|s| |s m e Bd]; cbn [Bsign B2R] in *; try lra. subst s. apply F2R_ge_0. cbn. lia. }
          pose proof (abs_B2R_lt_emax 53 1024 b) as D. apply Rabs_lt_inv in D.
          assert (G : rnd (- B2R b) <= rnd (B2R bx - B2R b)) by (apply rnd_mono; lra).
          assert (G2 : rnd (B2R bx - B2R b) <= rnd 0) by (apply rnd_mono; lra).
          rewrite round_0 in G2 by apply valid_rnd_round_mode.
          assert (G3 : rnd (- B2R b) = - B2R b).
          { apply round_generic; [apply valid_rnd_round_mode|]. apply generic_format_opp. apply generic_format_B2R. }
          rewrite Rabs_left1 in L by exact G2. lra. }
        rewrite Sb in H. cbn in H. rewrite ltb_minf in H. discriminate H.
    + rewrite ltb_minf. replace (sf_sub (S754_infinity true) (SFabs V)) with (S754_infinity true) in H
        by (destruct V as [?|?| |? ? ?]; try reflexivity; elim FV).
      rewrite ltb_minf in H. exact H.
    + apply ltb_inf_finite. exact Fw.
    + change (sf_sub S754_nan (SFabs V)) with S754_nan in H. rewrite ltb_nan in H. discriminate H.
  - exfalso. change (SFabs (S754_infinity s)) with (S754_infinity false) in H.
    destruct W as [?|[|]| |? ? ?]; cbn [sf_sub SFsub] in H; unfold sf_sub in H; cbn in H; rewrite ?ltb_minf, ?ltb_nan in H; discriminate H.
  - exfalso. change (SFabs S754_nan) with S754_nan in H.
    replace (sf_sub W S754_nan) with S754_nan in H by (destruct W; reflexivity). rewrite ltb_nan in H. discriminate H.
Qed.

(** doubling is exact unless it overflows *)
Lemma double_format x : finite64 x -> generic_format radix2 (SpecFloat.fexp 53 1024) (2 * fval x).
Proof.
  intros F. change (SpecFloat.fexp 53 1024) with (FLT_exp (-1074) 53). apply generic_format_FLT.
  destruct x as [s|s| |s m e].
  - exists (Float radix2 0 0).
    + unfold F2R. cbn. ring.
    + cbn. lia.
    + cbn. lia.
  - elim F.
  - elim F.
  - destruct F as (A & B & C). exists (Float radix2 (if s then Zneg m else Zpos m) (e + 1)).
    + unfold F2R. cbn [Fnum Fexp fval]. rewrite bpow_plus_1.
      assert (E : powerRZ 2 e = bpow radix2 e) by (symmetry; apply bpow_powerRZ). rewrite E.
      destruct s; change (IZR (Zneg m)) with (- IZR (Zpos m)); change (IZR radix2) with 2; ring.
    + cbn [Fnum]. destruct s; cbn [Z.abs]; exact A.
    + cbn [Fexp]. lia.
Qed.

(** ** constants *)
Lemma fval_neg s m p : fval (S754_finite s m (Zneg p)) = (if s then - IZR (Zpos m) else IZR (Zpos m)) / IZR (2 ^ Zpos p).
Proof.
  cbn [fval powerRZ]. unfold Rdiv. apply f_equal. apply f_equal. rewrite pow_IZR. apply f_equal.
  rewrite positive_nat_Z. reflexivity.
Qed.

Ltac const64 m e :=
  match goal with |- finite64 ?x /\ _ => change x with (S754_finite false m e) end;
  split; [split; [reflexivity|split; [lia|right; lia]]|rewrite fval_neg; cbn [Z.pow Z.pow_pos Pos.iter Z.mul Pos.mul]; lra].

Lemma fl_two : finite64 (lit 2 0 : f64) /\ fval (lit 2 0 : f64) = 2.
Proof. const64 4503599627370496%positive (-51)%Z. Qed.
Lemma fl_three : finite64 (lit 3 0 : f64) /\ fval (lit 3 0 : f64) = 3.
Proof. const64 6755399441055744%positive (-51)%Z. Qed.
Lemma fl_one : finite64 (lit 1 0 : f64) /\ fval (lit 1 0 : f64) = 1.
Proof. const64 4503599627370496%positive (-52)%Z. Qed.
Lemma fl_half : finite64 (lit 5 (-1) : f64) /\ fval (lit 5 (-1) : f64) = / 2.
Proof. const64 4503599627370496%positive (-53)%Z. Qed.
Lemma fl_zero : finite64 (lit 0 0 : f64) /\ fval (lit 0 0 : f64) = 0.
Proof. split; [exact I|reflexivity]. Qed.
Lemma fl_2eps : finite64 (mul (lit 2 0) eps : f64) /\ fval (mul (lit 2 0) eps : f64) = / 2251799813685248.
Proof. const64 4503599627370496%positive (-103)%Z. Qed.
