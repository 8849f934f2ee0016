(** * The operations of SF.v against Flocq: each is the correctly rounded real operation *)
From Coq Require Import ZArith Reals Bool SpecFloat Lia Lra Psatz.
From Flocq Require Import Core BinarySingleNaN Relative.
From Verif Require Import Num SF S_float.
Open Scope R_scope.

#[local] Instance prec_pos : Prec_gt_0 53 := eq_refl _.
#[local] Instance prec_max : Prec_lt_emax 53 1024 := eq_refl _.

Notation fl64 := (binary_float 53 1024).
Notation rnd := (round radix2 (SpecFloat.fexp 53 1024) (round_mode mode_NE)).

(** ** SpecFloat's rounding is Flocq's *)
Lemma rne_equiv s m l : round_nearest_even m l = choice_mode mode_NE s m l.
Proof.
  destruct l as [|c]; [reflexivity|]. destruct c; [|reflexivity|reflexivity].
  simpl. unfold Round.cond_incr. now destruct (Z.even m).
Qed.

Lemma bra_equiv sx mx ex lx :
  SpecFloat.binary_round_aux 53 1024 sx mx ex lx = binary_round_aux 53 1024 mode_NE sx mx ex lx.
Proof.
  unfold SpecFloat.binary_round_aux, binary_round_aux.
  set (mrse' := shr_fexp _ _ _). destruct mrse' as [mrs' e']. simpl.
  now rewrite (rne_equiv sx).
Qed.

Lemma br_equiv s m e : SpecFloat.binary_round 53 1024 s m e = binary_round 53 1024 mode_NE s m e.
Proof.
  unfold SpecFloat.binary_round, binary_round, shl_align_fexp.
  set (mez := shl_align _ _ _). destruct mez as [mz ez]. apply bra_equiv.
Qed.

Lemma bn_equiv m e z :
  SpecFloat.binary_normalize 53 1024 m e z = B2SF (binary_normalize 53 1024 _ _ mode_NE m e z).
Proof.
  destruct m as [|p|p]; [reflexivity| |]; simpl; rewrite B2SF_SF2B; apply br_equiv.
Qed.

Lemma add_equiv (x y : fl64) : sf_add (B2SF x) (B2SF y) = B2SF (Bplus mode_NE x y).
Proof.
  destruct x as [sx|sx| |sx mx ex Bx]; destruct y as [sy|sy| |sy my ey By];
    try (now (trivial || (unfold sf_add; simpl; destruct (Bool.eqb _ _)))).
  apply bn_equiv.
Qed.

Lemma sub_equiv (x y : fl64) : sf_sub (B2SF x) (B2SF y) = B2SF (Bminus mode_NE x y).
Proof.
  destruct x as [sx|sx| |sx mx ex Bx]; destruct y as [sy|sy| |sy my ey By];
    try (now (trivial || (unfold sf_sub; simpl; destruct (Bool.eqb _ _)))).
  unfold sf_sub. simpl. unfold Zminus. rewrite <- cond_Zopp_negb. apply bn_equiv.
Qed.

Lemma mul_equiv (x y : fl64) : sf_mul (B2SF x) (B2SF y) = B2SF (Bmult mode_NE x y).
Proof.
  destruct x as [sx|sx| |sx mx ex Bx]; destruct y as [sy|sy| |sy my ey By]; try (now trivial).
  unfold sf_mul. simpl. rewrite B2SF_SF2B. apply bra_equiv.
Qed.

Lemma div_equiv (x y : fl64) : sf_div (B2SF x) (B2SF y) = B2SF (Bdiv mode_NE x y).
Proof.
  destruct x as [sx|sx| |sx mx ex Bx]; destruct y as [sy|sy| |sy my ey By]; try (now trivial).
  unfold sf_div. simpl. rewrite B2SF_SF2B.
  set (melz := SFdiv_core_binary _ _ _ _ _ _). destruct melz as [[mz ez] lz]. apply bra_equiv.
Qed.

Lemma sqrt_equiv (x : fl64) : sf_sqrt (B2SF x) = B2SF (Bsqrt mode_NE x).
Proof.
  destruct x as [sx|sx| |sx mx ex Bx]; try (now (trivial || destruct sx)).
  destruct sx; [reflexivity|]. unfold sf_sqrt. simpl. rewrite B2SF_SF2B.
  set (melz := SFsqrt_core_binary _ _ _ _). destruct melz as [[mz ez] lz]. apply bra_equiv.
Qed.

(** ** the specification's view of floats *)
Lemma fval_SF2R x : fval x = SF2R radix2 x.
Proof.
  destruct x as [s|s| |s m e]; try reflexivity. simpl. unfold F2R. simpl.
  assert (E : powerRZ 2 e = bpow radix2 e) by (symmetry; apply bpow_powerRZ).
  rewrite E. now destruct s.
Qed.

Lemma bounded64 m e : bounded 53 1024 m e = true <->
  (Zpos m < 2 ^ 53 /\ -1074 <= e <= 971 /\ (e = -1074 \/ 2 ^ 52 <= Zpos m))%Z.
Proof.
  unfold bounded, canonical_mantissa, fexp, SpecFloat.emin.
  rewrite Bool.andb_true_iff, Z.leb_le. rewrite Digits.Zpos_digits2_pos.
  assert (D := Digits.Zdigits_correct radix2 (Zpos m)).
  set (d := Digits.Zdigits radix2 (Zpos m)) in *.
  assert (D0 : (0 < d)%Z) by (apply Digits.Zdigits_gt_0; lia).
  rewrite <- (Zeq_is_eq_bool _ _).
  assert (D1 : (2 ^ (d - 1) <= Zpos m < 2 ^ d)%Z) by exact D. clear D.
  split.
  - intros [E L]. assert (d <= 53)%Z by lia.
    assert (2 ^ d <= 2 ^ 53)%Z by (apply Z.pow_le_mono_r; lia).
    split; [lia|]. split; [lia|].
    destruct (Z.eq_dec e (-1074)); [now left|right].
    assert (d = 53)%Z by lia. subst d. rewrite H1 in D1. exact (proj1 D1).
  - intros (A & [B1 B2] & C).
    assert (d <= 53)%Z.
    { destruct (Z_le_gt_dec d 53); [assumption|]. exfalso.
      assert (2 ^ 53 <= 2 ^ (d - 1))%Z by (apply Z.pow_le_mono_r; lia). lia. }
    split; [|lia]. destruct C as [C|C]; [lia|].
    assert (d = 53)%Z; [|lia].
    destruct (Z_le_gt_dec 53 d); [lia|]. exfalso.
    assert (2 ^ d <= 2 ^ 52)%Z by (apply Z.pow_le_mono_r; lia). lia.
Qed.

Lemma finite64_B x : finite64 x -> exists b : fl64, B2SF b = x /\ is_finite b = true /\ B2R b = fval x.
Proof.
  intros H. destruct x as [s|s| |s m e]; try contradiction.
  - exists (B754_zero s). repeat split; reflexivity.
  - assert (B : bounded 53 1024 m e = true) by now apply bounded64.
    exists (B754_finite s m e B). repeat split. rewrite fval_SF2R. reflexivity.
Qed.

Lemma B_finite64 (b : fl64) : is_finite b = true -> finite64 (B2SF b) /\ fval (B2SF b) = B2R b.
Proof.
  intros H. destruct b as [s|s| |s m e B]; try discriminate.
  - split; [exact I|reflexivity].
  - split; [now apply bounded64|rewrite fval_SF2R; reflexivity].
Qed.

Lemma SF_finite64 x : valid_binary 53 1024 x = true -> is_finite_SF x = true -> finite64 x.
Proof.
  intros V H. destruct x as [s|s| |s m e]; try discriminate; [exact I|now apply bounded64].
Qed.

(** ** rounding *)
Definition u64 : R := / 9007199254740992.       (* 2^-53 *)
Definition eta64 : R := powerRZ 2 (-1075).
Definition big64 : R := powerRZ 2 1000.

Lemma u64_pos : 0 < u64. Proof. unfold u64. lra. Qed.
Lemma eta64_pos : 0 < eta64. Proof. apply powerRZ_lt. lra. Qed.

Lemma rnd_err x : Rabs (rnd x - x) <= u64 * Rabs x + eta64.
Proof.
  assert (E : forall y, rnd y = round radix2 (FLT_exp (-1074) 53) (Znearest (fun x => negb (Z.even x))) y).
  { intros y. reflexivity. }
  rewrite E.
  destruct (error_N_FLT radix2 (-1074) 53 eq_refl (fun x => negb (Z.even x)) x) as (d & h & D & Hh & _ & Eq).
  rewrite Eq.
  replace (x * (1 + d) + h - x) with (d * x + h) by ring.
  eapply Rle_trans; [apply Rabs_triang|]. apply Rplus_le_compat.
  - rewrite Rabs_mult. apply Rmult_le_compat_r; [apply Rabs_pos|].
    eapply Rle_trans; [exact D|]. right. unfold u64.
    change (- (53) + 1)%Z with (- (52))%Z. rewrite bpow_opp. simpl.
    change (IZR (Z.pow_pos 2 52)) with 4503599627370496. field.
  - eapply Rle_trans; [exact Hh|]. right. unfold eta64.
    rewrite <- (bpow_powerRZ radix2).
    change (-1075)%Z with (-1074 + - (1))%Z. rewrite bpow_plus.
    change (bpow radix2 (- (1))) with (/ 2). ring.
Qed.

Lemma big_pos : 1 <= big64.
Proof.
  unfold big64. rewrite <- (bpow_powerRZ radix2). change 1 with (bpow radix2 0). apply bpow_le. lia.
Qed.

Lemma rnd_small x : Rabs x <= big64 -> Rabs (rnd x) < bpow radix2 1024.
Proof.
  intros H. assert (E := rnd_err x).
  assert (T : Rabs (rnd x) <= Rabs x + Rabs (rnd x - x)).
  { replace (rnd x) with (x + (rnd x - x)) at 1 by ring. apply Rabs_triang. }
  assert (P := Rabs_pos x). assert (U : u64 <= 1) by (unfold u64; lra).
  assert (e1 : eta64 <= 1).
  { unfold eta64. rewrite <- (bpow_powerRZ radix2). change 1 with (bpow radix2 0). apply bpow_le. lia. }
  assert (B := big_pos).
  assert (B2 : bpow radix2 1024 = 16777216 * big64).
  { unfold big64. rewrite <- (bpow_powerRZ radix2). change 1024%Z with (24 + 1000)%Z. rewrite bpow_plus.
    change (bpow radix2 24) with 16777216. reflexivity. }
  rewrite B2. nra.
Qed.

(** an operation's outcome: finite, within rounding of the exact value *)
Definition near (z : f64) (v : R) : Prop :=
  finite64 z /\ Rabs (fval z - v) <= u64 * Rabs v + eta64.

Lemma near_rnd (b : fl64) v : is_finite b = true -> B2R b = rnd v -> near (B2SF b) v.
Proof.
  intros F E. destruct (B_finite64 b F) as [A B]. split; [exact A|].
  rewrite B, E. apply rnd_err.
Qed.

Ltac binop thm equiv :=
  intros Fx Fy H; destruct (finite64_B _ Fx) as (bx & <- & Hx & Ex); destruct (finite64_B _ Fy) as (by_ & <- & Hy & Ey);
  rewrite <- Ex, <- Ey in *; rewrite equiv;
  generalize (thm bx by_ Hx Hy); rewrite Rlt_bool_true by (apply rnd_small; assumption).

Lemma sf_add_near x y : finite64 x -> finite64 y -> Rabs (fval x + fval y) <= big64 -> near (sf_add x y) (fval x + fval y).
Proof.
  binop (Bplus_correct 53 1024 _ _ mode_NE) add_equiv. intros (E & F & _). now apply near_rnd.
Qed.

Lemma sf_sub_near x y : finite64 x -> finite64 y -> Rabs (fval x - fval y) <= big64 -> near (sf_sub x y) (fval x - fval y).
Proof.
  binop (Bminus_correct 53 1024 _ _ mode_NE) sub_equiv. intros (E & F & _). now apply near_rnd.
Qed.

Lemma sf_mul_near x y : finite64 x -> finite64 y -> Rabs (fval x * fval y) <= big64 -> near (sf_mul x y) (fval x * fval y).
Proof.
  binop (fun x y (_ : is_finite x = true) (_ : is_finite y = true) => Bmult_correct 53 1024 _ _ mode_NE x y) mul_equiv.
  intros (E & F & _). apply near_rnd; [|exact E]. rewrite F, Hx, Hy. reflexivity.
Qed.

Lemma sf_div_near x y : finite64 x -> finite64 y -> fval y <> 0 -> Rabs (fval x / fval y) <= big64 ->
  near (sf_div x y) (fval x / fval y).
Proof.
  intros Fx Fy N H. destruct (finite64_B _ Fx) as (bx & <- & Hx & Ex). destruct (finite64_B _ Fy) as (b & <- & Hy & Ey).
  rewrite <- Ex, <- Ey in *. rewrite div_equiv.
  generalize (Bdiv_correct 53 1024 _ _ mode_NE bx b N). rewrite Rlt_bool_true by (apply rnd_small; assumption).
  intros (E & F & _). apply near_rnd; [|exact E]. now rewrite F.
Qed.

Lemma sf_sqrt_near x : finite64 x -> 0 <= fval x -> near (sf_sqrt x) (sqrt (fval x)).
Proof.
  intros Fx P. destruct (finite64_B _ Fx) as (bx & <- & Hx & Ex). rewrite <- Ex in *. rewrite sqrt_equiv.
  destruct (Bsqrt_correct 53 1024 _ _ mode_NE bx) as (E & F & _).
  apply near_rnd; [|exact E]. rewrite F. destruct bx as [s|s| |s m e B]; try reflexivity; try discriminate.
  destruct s; [|reflexivity]. exfalso. simpl in P. assert (Q : F2R (Float radix2 (Zneg m) e) < 0) by (apply F2R_lt_0; simpl; lia). unfold F2R in P, Q. simpl in P, Q. lra.
Qed.

Lemma sf_of_Z_near z : Rabs (IZR z) <= big64 -> near (sf_of_Z z) (IZR z).
Proof.
  intros H. unfold sf_of_Z. rewrite bn_equiv.
  generalize (binary_normalize_correct 53 1024 _ _ mode_NE z 0 false). cbv zeta.
  assert (E : F2R (Float radix2 z 0) = IZR z) by (unfold F2R; simpl; ring).
  rewrite E, Rlt_bool_true by (now apply rnd_small). intros (A & B & _). now apply near_rnd.
Qed.

Lemma div_aux s p q : Rabs ((if s : bool then - IZR (Zpos p) else IZR (Zpos p)) / IZR (Zpos q)) <= big64 ->
  near (SFdiv 53 1024 (S754_finite s p 0) (S754_finite false q 0)) ((if s then - IZR (Zpos p) else IZR (Zpos p)) / IZR (Zpos q)).
Proof.
  intros H. simpl.
  generalize (Bdiv_correct_aux 53 1024 _ _ mode_NE s p 0 false q 0). cbv zeta.
  assert (E1 : F2R (Float radix2 (cond_Zopp s (Zpos p)) 0) = if s then - IZR (Zpos p) else IZR (Zpos p)).
  { unfold F2R. cbn [Fnum Fexp bpow]. destruct s; cbn [cond_Zopp]; rewrite ?opp_IZR; ring. }
  assert (E2 : F2R (Float radix2 (cond_Zopp false (Zpos q)) 0) = IZR (Zpos q)).
  { unfold F2R. simpl. ring. }
  rewrite E1, E2.
  destruct (SFdiv_core_binary 53 1024 (Z.pos p) 0 (Z.pos q) 0) as [[mz ez] lz].
  rewrite <- bra_equiv. rewrite Rlt_bool_true by (now apply rnd_small).
  intros (V & A & F & _). split.
  - now apply SF_finite64.
  - rewrite fval_SF2R, A. apply rnd_err.
Qed.

Lemma sf_lit_near m e : Rabs (Rlit m e) <= big64 -> near (sf_lit m e) (Rlit m e).
Proof.
  unfold sf_lit, Rlit. destruct (Z.leb_spec 0 e) as [L|L].
  - rewrite <- mult_IZR. apply sf_of_Z_near.
  - assert (P : (0 < 10 ^ (- e))%Z) by (apply Z.pow_pos_nonneg; lia).
    destruct (10 ^ (- e))%Z as [|q|q]; [exfalso; lia| |exfalso; lia].
    destruct m as [|p|p]; intros H.
    + split; [exact I|]. simpl. unfold Rdiv. rewrite Rmult_0_l, Rminus_0_r, Rabs_R0, Rmult_0_r, Rplus_0_l.
      apply Rlt_le, eta64_pos.
    + exact (div_aux false p q H).
    + assert (N : IZR (Zneg p) = - IZR (Zpos p)) by reflexivity.
      rewrite N in *. exact (div_aux true p q H).
Qed.

Lemma sf_eqb_zero x : finite64 x -> fval x <> 0 -> SFeqb x (S754_zero false) = false.
Proof.
  intros F N. destruct x as [s|s| |s m e].
  - elim N. reflexivity.
  - elim F.
  - elim F.
  - destruct s; reflexivity.
Qed.

(** exact operations *)
Lemma SFopp_exact x : finite64 x -> finite64 (SFopp x) /\ fval (SFopp x) = - fval x.
Proof.
  intros F. destruct x as [s|s| |s m e].
  - split; [exact I|simpl; ring].
  - elim F.
  - elim F.
  - split; [exact F|]. unfold fval, SFopp. destruct s; cbn [negb]; ring.
Qed.
