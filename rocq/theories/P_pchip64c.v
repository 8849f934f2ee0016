(** * Rounding of the end slopes of the PCHIP interpolant *)
From Coq Require Import ZArith Reals Lra Lia Bool SpecFloat List Psatz.
From Flocq Require Import Core BinarySingleNaN.
From Verif Require Import Num SF Res M_ppinterp S_float S_interp P_float P_fl P_brent64 P_linear64 P_pchip P_pchip64 P_pchip64b.
Import ListNotations.
Local Open Scope R_scope.

(** the number between 0 and 3 D closest to q *)
Definition clip3 (q D : R) : R := Rmax (Rmin 0 (3 * D)) (Rmin q (Rmax 0 (3 * D))).

Lemma clip3_opp q D : clip3 (- q) (- D) = - clip3 q D.
Proof. unfold clip3, Rmax, Rmin. repeat destruct (Rle_dec _ _); lra. Qed.
Lemma clip3_pos q D : 0 <= D -> clip3 q D = Rmax 0 (Rmin q (3 * D)).
Proof. intros H. unfold clip3, Rmax, Rmin. repeat destruct (Rle_dec _ _); lra. Qed.

(** the end slope of exact arithmetic is a clipped quotient *)
Lemma slope_end_clip h1 h2 dl1 dl2 : 0 < h1 -> 0 < h2 ->
  slope_end h1 h2 dl1 dl2 = clip3 (((2 * h1 + h2) * dl1 - h1 * dl2) / (h1 + h2)) dl1.
Proof.
  intros P1 P2. unfold slope_end. set (q := ((2 * h1 + h2) * dl1 - h1 * dl2) / (h1 + h2)).
  assert (Eq : q * (h1 + h2) = (2 * h1 + h2) * dl1 - h1 * dl2) by (unfold q; field; lra).
  destruct (Rle_dec (q * dl1) 0) as [L|L].
  - unfold clip3, Rmax, Rmin. repeat destruct (Rle_dec _ _); try lra; nra.
  - destruct (Rle_dec (dl1 * dl2) 0) as [L'|L'].
    + destruct (Rlt_dec (3 * Rabs dl1) (Rabs q)) as [A|A]; unfold Rabs in A; destruct (Rcase_abs dl1), (Rcase_abs q);
      unfold clip3, Rmax, Rmin; repeat destruct (Rle_dec _ _); try lra; nra.
    + assert (A : Rabs q <= 2 * Rabs dl1).
      { destruct (Rlt_dec 0 dl1).
        - assert (0 < dl2) by nra. assert (0 < q) by nra. rewrite !Rabs_pos_eq by lra.
          apply Rmult_le_reg_r with (h1 + h2); [lra|]. rewrite Eq. nra.
        - assert (dl1 < 0) by (destruct (Req_dec dl1 0) as [E|E]; [rewrite E in L'; lra|lra]).
          assert (dl2 < 0) by nra. assert (q < 0) by nra. rewrite !Rabs_left by lra.
          apply Rmult_le_reg_r with (h1 + h2); [lra|]. replace (- q * (h1 + h2)) with (- (q * (h1 + h2))) by ring. rewrite Eq. nra. }
      unfold Rabs in A. destruct (Rcase_abs dl1), (Rcase_abs q); unfold clip3, Rmax, Rmin; repeat destruct (Rle_dec _ _); try lra; nra.
Qed.

(** how the computed end slope f depends on the computed quotient q, three times the secant f3 and the secants A1, A2 *)
Definition limited (q f3 A1 A2 f : R) : Prop :=
  (q * A1 <= 0 /\ f = 0) \/ (0 < q * A1 /\ 0 < A1 * A2 /\ f = q)
  \/ (0 < q * A1 /\ A1 * A2 <= 0 /\ Rabs f3 < Rabs q /\ f = f3) \/ (0 < q * A1 /\ A1 * A2 <= 0 /\ Rabs q <= Rabs f3 /\ f = q).

Lemma limited_opp q f3 A1 A2 f : limited q f3 A1 A2 f -> limited (- q) (- f3) (- A1) (- A2) (- f).
Proof.
  unfold limited. rewrite !Rabs_Ropp. replace (- q * - A1) with (q * A1) by ring. replace (- A1 * - A2) with (A1 * A2) by ring.
  intros [[? ->]|[(? & ? & ->)|[(? & ? & ? & ->)|(? & ? & ? & ->)]]]; [left; split; [assumption|ring]|right; left|right; right; left|right; right; right]; auto.
Qed.

Section EndReal.
  Variables (r t : R).
  Hypothesis Hr : 0 <= r <= 1.
  Hypothesis Ht : 0 <= t.

  Lemma endA_pos A1 A2 q f3 f : 0 <= A1 ->
    Rabs (q - ((1 + r) * A1 - r * A2)) <= 165 / 10 * (u64 * Rabs A1) + 63 / 10 * (u64 * (r * Rabs A2)) + t ->
    Rabs (f3 - 3 * A1) <= 31 / 10 * (u64 * Rabs A1) + t -> limited q f3 A1 A2 f ->
    Rabs (f - clip3 ((1 + r) * A1 - r * A2) A1) <= 33 * (u64 * Rabs A1) + 3 * t.
  Proof.
    intros P Hq H3 HL. rewrite (Rabs_pos_eq A1) in * by exact P. rewrite clip3_pos by exact P.
    destruct (Req_dec A1 0) as [->|NZ].
    { assert (f = 0) as -> by (destruct HL as [[_ ->]|[(X & _)|[(X & _)|(X & _)]]]; [reflexivity|lra|lra|lra]).
      unfold Rmax, Rmin. repeat destruct (Rle_dec _ _); apply Rabs_le; lra. }
    assert (P1 : 0 < A1) by lra.
    set (a := r * A1). assert (Ha : 0 <= a <= A1) by (unfold a; nra).
    set (b := r * A2) in *. assert (Eb : r * Rabs A2 = Rabs b) by (unfold b; rewrite Rabs_mult, (Rabs_pos_eq r) by lra; reflexivity). rewrite Eb in Hq.
    assert (Pb : 0 < A1 * A2 -> 0 <= b) by (intros X; unfold b; assert (0 < A2) by nra; nra).
    assert (Nb : A1 * A2 <= 0 -> b <= 0) by (intros X; unfold b; assert (A2 <= 0) by nra; nra).
    clearbody b. replace ((1 + r) * A1 - b) with (A1 + a - b) in * by (unfold a; ring). clearbody a.
    apply Rabs_le_inv in Hq. apply Rabs_le_inv in H3. rewrite u64_val in *.
    destruct HL as [[X ->]|[(X & Y & ->)|[(X & Y & Z & ->)|(X & Y & Z & ->)]]].
    - assert (q <= 0) by nra. unfold Rabs in Hq. destruct (Rcase_abs b); unfold Rmax, Rmin; repeat destruct (Rle_dec _ _); apply Rabs_le; lra.
    - assert (0 < q) by nra. specialize (Pb Y). rewrite (Rabs_pos_eq b) in Hq by exact Pb.
      unfold Rmax, Rmin. repeat destruct (Rle_dec _ _); apply Rabs_le; lra.
    - assert (0 < q) by nra. specialize (Nb Y). rewrite (Rabs_left1 b) in Hq by exact Nb. rewrite (Rabs_pos_eq q) in Z by lra.
      unfold Rabs in Z. destruct (Rcase_abs f3); unfold Rmax, Rmin; repeat destruct (Rle_dec _ _); apply Rabs_le; lra.
    - assert (0 < q) by nra. specialize (Nb Y). rewrite (Rabs_left1 b) in Hq by exact Nb. rewrite (Rabs_pos_eq q) in Z by lra.
      unfold Rabs in Z. destruct (Rcase_abs f3); unfold Rmax, Rmin; repeat destruct (Rle_dec _ _); apply Rabs_le; lra.
  Qed.

  Lemma endA A1 A2 q f3 f :
    Rabs (q - ((1 + r) * A1 - r * A2)) <= 165 / 10 * (u64 * Rabs A1) + 63 / 10 * (u64 * (r * Rabs A2)) + t ->
    Rabs (f3 - 3 * A1) <= 31 / 10 * (u64 * Rabs A1) + t -> limited q f3 A1 A2 f ->
    Rabs (f - clip3 ((1 + r) * A1 - r * A2) A1) <= 33 * (u64 * Rabs A1) + 3 * t.
  Proof.
    intros Hq H3 HL. destruct (Rle_or_lt 0 A1) as [P|P]; [apply (endA_pos A1 A2 q f3 f P Hq H3 HL)|].
    pose proof (endA_pos (- A1) (- A2) (- q) (- f3) (- f) ltac:(lra)) as G. rewrite !Rabs_Ropp in G.
    replace (- q - ((1 + r) * - A1 - r * - A2)) with (- (q - ((1 + r) * A1 - r * A2))) in G by ring.
    replace (- f3 - 3 * - A1) with (- (f3 - 3 * A1)) in G by ring. rewrite !Rabs_Ropp in G.
    replace ((1 + r) * - A1 - r * - A2) with (- ((1 + r) * A1 - r * A2)) in G by ring. rewrite clip3_opp in G.
    replace (- f - - clip3 ((1 + r) * A1 - r * A2) A1) with (- (f - clip3 ((1 + r) * A1 - r * A2) A1)) in G by ring. rewrite Rabs_Ropp in G.
    apply G; try assumption. apply limited_opp. exact HL.
  Qed.

  (** perturbation of the secants *)
  Lemma endB_pos A1 A2 D1 D2 : 0 < D1 -> Rabs (A1 - D1) <= 305 / 100 * (u64 * Rabs D1) -> Rabs (A2 - D2) <= 305 / 100 * (u64 * Rabs D2) + t ->
    Rabs (clip3 ((1 + r) * A1 - r * A2) A1 - clip3 ((1 + r) * D1 - r * D2) D1) <= 22 * (u64 * Rabs D1) + t.
  Proof.
    intros P H1 H2. rewrite (Rabs_pos_eq D1) in * by lra. apply Rabs_le_inv in H1.
    assert (PA : 0 <= A1) by (rewrite u64_val in H1; lra). rewrite !clip3_pos by lra.
    assert (B2 : Rabs (r * A2 - r * D2) <= 305 / 100 * (u64 * Rabs (r * D2)) + t).
    { replace (r * A2 - r * D2) with (r * (A2 - D2)) by ring. rewrite !Rabs_mult, (Rabs_pos_eq r) by lra.
      assert (r * Rabs (A2 - D2) <= r * (305 / 100 * (u64 * Rabs D2) + t)) by (apply Rmult_le_compat_l; lra).
      assert (r * t <= 1 * t) by (apply Rmult_le_compat_r; lra). lra. }
    set (b := r * A2) in *. set (c := r * D2) in *. clearbody b c.
    replace ((1 + r) * A1 - b) with (A1 + r * (A1 - D1) + r * D1 - b) by ring. replace ((1 + r) * D1 - c) with (D1 + r * D1 - c) by ring.
    assert (E1 : - (305 / 100 * (u64 * D1)) <= r * (A1 - D1) <= 305 / 100 * (u64 * D1)).
    { assert (0 < u64 * D1) by (apply Rmult_lt_0_compat; [apply u64_pos|lra]). split; nra. }
    set (e := r * (A1 - D1)) in *. set (a := r * D1). assert (Ha : 0 <= a <= D1) by (unfold a; nra). clearbody e a.
    apply Rabs_le_inv in B2. rewrite u64_val in *. unfold Rabs in B2.
    destruct (Rcase_abs c); unfold Rmax, Rmin; repeat destruct (Rle_dec _ _); apply Rabs_le; lra.
  Qed.
  Lemma endB A1 A2 D1 D2 : Rabs (A1 - D1) <= 305 / 100 * (u64 * Rabs D1) -> Rabs (A2 - D2) <= 305 / 100 * (u64 * Rabs D2) + t ->
    Rabs (clip3 ((1 + r) * A1 - r * A2) A1 - clip3 ((1 + r) * D1 - r * D2) D1) <= 22 * (u64 * Rabs D1) + t.
  Proof.
    intros H1 H2. destruct (Rlt_or_le 0 D1) as [P|P]; [apply (endB_pos A1 A2 D1 D2 P H1 H2)|].
    destruct (Req_dec D1 0) as [Z|NZ].
    { rewrite Z, Rabs_R0, Rmult_0_r, Rmult_0_r, Rminus_0_r in H1. assert (A1 = 0) as -> by (apply Rabs_le_inv in H1; lra).
      rewrite Z. unfold clip3, Rmax, Rmin. repeat destruct (Rle_dec _ _); rewrite Rabs_R0; apply Rabs_le; lra. }
    pose proof (endB_pos (- A1) (- A2) (- D1) (- D2) ltac:(lra)) as G.
    replace (- A1 - - D1) with (- (A1 - D1)) in G by ring. replace (- A2 - - D2) with (- (A2 - D2)) in G by ring. rewrite !Rabs_Ropp in G.
    replace ((1 + r) * - A1 - r * - A2) with (- ((1 + r) * A1 - r * A2)) in G by ring.
    replace ((1 + r) * - D1 - r * - D2) with (- ((1 + r) * D1 - r * D2)) in G by ring. rewrite !clip3_opp in G.
    match goal with |- Rabs (?x - ?y) <= _ => replace (- x - - y) with (- (x - y)) in G by ring end. rewrite Rabs_Ropp in G. apply G; assumption.
  Qed.
End EndReal.

Lemma clip3_bound q D : Rabs (clip3 q D) <= 3 * Rabs D.
Proof. unfold clip3, Rmax, Rmin, Rabs. destruct (Rcase_abs D); repeat destruct (Rle_dec _ _); destruct (Rcase_abs _); lra. Qed.

Section End.
  Variables (h1 h2 dl1 dl2 : R) (fh1 fh2 fdl1 fdl2 : f64).
  Hypothesis S1 : secant64 h1 dl1 fh1 fdl1.
  Hypothesis S2 : secant64 h2 dl2 fh2 fdl2.

  Let g := h1 + h2.
  Let r := h1 / g.
  Let A1 := fval fdl1.
  Let A2 := fval fdl2.
  Let w := 2 * h1 + h2.
  Let fw := add (mul (lit 2 0) fh1) fh2 : f64.
  Let fg := add fh1 fh2 : f64.
  Let n1 := mul fw fdl1 : f64.
  Let n2 := mul fh1 fdl2 : f64.
  Let num := sub n1 n2 : f64.
  Let q := div num fg : f64.

  Lemma g_ok : rl (202 / 100) fg g /\ rng (-60) 61 g /\ 0 < g.
  Proof.
    pose proof (s_hpos _ _ _ _ S1) as P1. pose proof (s_hpos _ _ _ _ S2) as P2. assert (Q : 0 <= h1 * h2) by (apply Rmult_le_pos; lra).
    pose proof (rng_add _ _ _ _ (s_h _ _ _ _ S1) (s_h _ _ _ _ S2) Q) as R. split; [|split; [exact R|unfold g; lra]].
    apply (rl_mono (101 / 100 + 101 / 100)); [lra|]. apply rl_add; [apply S1|apply S2|lra|exact Q|]. apply (rng_normal _ _ _ R); lia.
  Qed.
  Lemma r_range : 0 <= r <= 1.
  Proof.
    pose proof (s_hpos _ _ _ _ S1) as P1. pose proof (s_hpos _ _ _ _ S2) as P2. unfold r, g. split.
    - apply Rmult_le_pos; [lra|left; apply Rinv_0_lt_compat; lra].
    - apply Rmult_le_reg_r with (h1 + h2); [lra|]. unfold Rdiv. rewrite Rmult_assoc, Rinv_l by lra. lra.
  Qed.
  Lemma eta_T : eta64 <= / 1000 * T64 /\ eta64 <= / 1000 * (T64 * g).
  Proof.
    destruct g_ok as (_ & [L _] & P). rewrite (Rabs_pos_eq g) in L by lra. pose proof T64_pos as tp.
    assert (E60 : eta64 <= / 1000 * (T64 * powerRZ 2 (-60))).
    { unfold T64, eta64. rewrite pow2_mul. apply Rle_trans with (powerRZ 2 (-10) * powerRZ 2 (-700 + -60)).
      - rewrite pow2_mul. apply pow2_le. lia.
      - apply Rmult_le_compat_r; [left; apply pow2_pos|]. simpl. lra. }
    split.
    - eapply Rle_trans; [exact E60|]. apply Rmult_le_compat_l; [lra|]. rewrite <- (Rmult_1_r T64) at 2. apply Rmult_le_compat_l; [lra|].
      change 1 with (powerRZ 2 0). apply pow2_le. lia.
    - eapply Rle_trans; [exact E60|]. apply Rmult_le_compat_l; [lra|]. apply Rmult_le_compat_l; lra.
  Qed.

  Lemma mul_close k (fx fy : f64) x : rl k fx x -> 0 <= k <= 10 -> rng (-60) 63 x -> finite64 fy -> Rabs (fval fy) <= powerRZ 2 161 ->
    finite64 (mul fx fy : f64) /\ Rabs (fval (mul fx fy : f64) - x * fval fy) <= (k + 1001 / 1000) * (u64 * (Rabs x * Rabs (fval fy))) + eta64.
  Proof.
    intros [Fx (e & E & B)] Hk [_ Rx] Fy By. change (mul fx fy : f64) with (sf_mul fx fy).
    pose proof (small_r _ _ B ltac:(lra)) as Se. set (Z := Rabs x * Rabs (fval fy)).
    assert (PZ : 0 <= Z) by (apply Rmult_le_pos; apply Rabs_pos).
    assert (BZ : Z <= powerRZ 2 224).
    { replace (powerRZ 2 224) with (powerRZ 2 63 * powerRZ 2 161) by (rewrite pow2_mul; f_equal; lia). apply Rmult_le_compat; try apply Rabs_pos; assumption. }
    assert (EV : Rabs (fval fx * fval fy) = Z * (1 + e)).
    { rewrite E, !Rabs_mult, (Rabs_pos_eq (1 + e)) by lra. unfold Z. ring. }
    destruct (sf_mul_near fx fy Fx Fy) as [Fm Em].
    { rewrite EV. apply Rle_trans with (powerRZ 2 224 * powerRZ 2 1); [|rewrite pow2_mul; unfold big64; apply pow2_le; lia].
      apply Rmult_le_compat; try lra. simpl. lra. }
    split; [exact Fm|]. replace (fval (sf_mul fx fy) - x * fval fy) with ((fval (sf_mul fx fy) - fval fx * fval fy) + x * fval fy * e) by (rewrite E; ring).
    eapply Rle_trans; [apply Rabs_triang|]. rewrite EV in Em. rewrite (Rabs_mult (x * fval fy)), (Rabs_mult x). fold Z.
    assert (Z * Rabs e <= Z * (k * u64)) by (apply Rmult_le_compat_l; assumption).
    assert (u64 * (Z * (1 + e)) <= u64 * (Z * (1001 / 1000))) by (apply Rmult_le_compat_l; [left; apply u64_pos|apply Rmult_le_compat_l; lra]). lra.
  Qed.

  Lemma q_ok : sdiv num fg = Ok q /\ finite64 q
    /\ Rabs (fval q - ((1 + r) * A1 - r * A2)) <= 165 / 10 * (u64 * Rabs A1) + 63 / 10 * (u64 * (r * Rabs A2)) + T64.
  Proof.
    destruct g_ok as (Lg & Rg & Pg). destruct eta_T as [e1 e2]. pose proof r_range as Hr.
    pose proof (s_hpos _ _ _ _ S1) as P1. pose proof (s_hpos _ _ _ _ S2) as P2.
    destruct (w2_ok h1 h2 dl1 dl2 fh1 fh2 fdl1 fdl2 S1 S2) as (Lw & Rw & Pw). change (rl (305 / 100) fw w) in Lw. change (rng (-60) 63 w) in Rw. clear Pw. assert (Pw : 0 < w) by (unfold w; lra).
    destruct (mul_close (305 / 100) fw fdl1 w Lw ltac:(lra) Rw (s_fin _ _ _ _ S1) (fdl_bound _ _ _ _ S1)) as [F1 E1].
    assert (Rh : rng (-60) 63 h1) by (apply (rng_mono _ _ _ _ _ (s_h _ _ _ _ S1)); lia).
    destruct (mul_close (101 / 100) fh1 fdl2 h1 (s_fh _ _ _ _ S1) ltac:(lra) Rh (s_fin _ _ _ _ S2) (fdl_bound _ _ _ _ S2)) as [F2 E2].
    fold n1 in F1, E1. fold n2 in F2, E2. fold A1 in E1. fold A2 in E2. rewrite (Rabs_pos_eq w) in E1 by lra. rewrite (Rabs_pos_eq h1) in E2 by lra.
    set (X := w * Rabs A1) in *. set (Y := h1 * Rabs A2) in *.
    assert (PX : 0 <= X) by (apply Rmult_le_pos; [lra|apply Rabs_pos]). assert (PY : 0 <= Y) by (apply Rmult_le_pos; [lra|apply Rabs_pos]).
    assert (BX : X <= powerRZ 2 224).
    { replace (powerRZ 2 224) with (powerRZ 2 63 * powerRZ 2 161) by (rewrite pow2_mul; f_equal; lia). destruct Rw as [_ Rw]. rewrite (Rabs_pos_eq w) in Rw by lra.
      apply Rmult_le_compat; try lra; [apply Rabs_pos|apply (fdl_bound _ _ _ _ S1)]. }
    assert (BY : Y <= powerRZ 2 224).
    { replace (powerRZ 2 224) with (powerRZ 2 63 * powerRZ 2 161) by (rewrite pow2_mul; f_equal; lia). destruct (s_h _ _ _ _ S1) as [_ Q]. rewrite (Rabs_pos_eq h1) in Q by lra.
      apply Rmult_le_compat; try lra; [apply Rabs_pos| |apply (fdl_bound _ _ _ _ S2)]. eapply Rle_trans; [exact Q|]. apply pow2_le. lia. }
    set (S := w * A1 - h1 * A2).
    assert (BS : Rabs S <= X + Y).
    { unfold S. replace (w * A1 - h1 * A2) with (w * A1 + - (h1 * A2)) by ring. eapply Rle_trans; [apply Rabs_triang|].
      rewrite Rabs_Ropp, !Rabs_mult, (Rabs_pos_eq w), (Rabs_pos_eq h1) by lra. fold X Y. lra. }
    pose proof u64_pos as up.
    assert (uX : 0 <= u64 * X) by (apply Rmult_le_pos; lra). assert (uY : 0 <= u64 * Y) by (apply Rmult_le_pos; lra).
    assert (ED : Rabs (fval n1 - fval n2 - S) <= 406 / 100 * (u64 * X) + 202 / 100 * (u64 * Y) + 2 * eta64).
    { unfold S. replace (fval n1 - fval n2 - (w * A1 - h1 * A2)) with ((fval n1 - w * A1) + - (fval n2 - h1 * A2)) by ring.
      eapply Rle_trans; [apply Rabs_triang|]. rewrite Rabs_Ropp. lra. }
    pose proof eta64_pos as ep. assert (eta1 : eta64 <= 1) by (unfold eta64; change 1 with (powerRZ 2 0); apply pow2_le; lia).
    assert (BD : Rabs (fval n1 - fval n2) <= 1001 / 1000 * (X + Y) + 2 * eta64).
    { replace (fval n1 - fval n2) with (S + (fval n1 - fval n2 - S)) by ring. eapply Rle_trans; [apply Rabs_triang|]. rewrite u64_val in *. lra. }
    assert (P224 : 3 * (powerRZ 2 224 + powerRZ 2 224) + 10 <= powerRZ 2 230).
    { change 230%Z with (6 + 224)%Z. rewrite <- pow2_mul. simpl (powerRZ 2 6). assert (1 <= powerRZ 2 224) by (change 1 with (powerRZ 2 0); apply pow2_le; lia). lra. }
    destruct (sf_sub_near n1 n2 F1 F2) as [Fn En].
    { apply Rle_trans with (powerRZ 2 230); [lra|unfold big64; apply pow2_le; lia]. }
    change (sf_sub n1 n2) with num in Fn, En.
    assert (EN : Rabs (fval num - S) <= 507 / 100 * (u64 * X) + 303 / 100 * (u64 * Y) + 4 * eta64).
    { replace (fval num - S) with ((fval num - (fval n1 - fval n2)) + (fval n1 - fval n2 - S)) by ring. eapply Rle_trans; [apply Rabs_triang|].
      assert (u64 * Rabs (fval n1 - fval n2) <= u64 * (1001 / 1000 * (X + Y) + 2 * eta64)) by (apply Rmult_le_compat_l; lra).
      assert (u64 * eta64 <= / 1000 * eta64) by (apply Rmult_le_compat_r; [lra|rewrite u64_val; lra]). lra. }
    destruct Lg as [Fg (e & Eg & Be)]. pose proof (small_r _ _ Be ltac:(lra)) as Se.
    assert (Pfg : 0 < fval fg) by (rewrite Eg; apply Rmult_lt_0_compat; lra).
    set (v := fval num / fval fg).
    (* v g *)
    assert (EV : Rabs (v * g - S) <= 712 / 100 * (u64 * X) + 508 / 100 * (u64 * Y) + 5 * eta64).
    { assert (E : (v * g - S) * (1 + e) = (fval num - S) + - (S * e)) by (unfold v; rewrite Eg; clear - Se Pg; clearbody S g; field; repeat split; lra).
      assert (E' : Rabs (v * g - S) * (1 + e) <= (507 / 100 * (u64 * X) + 303 / 100 * (u64 * Y) + 4 * eta64) + (X + Y) * (202 / 100 * u64)).
      { rewrite <- (Rabs_pos_eq (1 + e)) by lra. rewrite <- Rabs_mult, E. eapply Rle_trans; [apply Rabs_triang|]. rewrite Rabs_Ropp, (Rabs_mult S).
        apply Rplus_le_compat; [exact EN|]. apply Rmult_le_compat; try apply Rabs_pos; assumption. }
      pose proof (Rabs_pos (v * g - S)) as PP.
      assert (Rabs (v * g - S) * (1 - / 1000000) <= Rabs (v * g - S) * (1 + e)) by (apply Rmult_le_compat_l; lra). lra. }
    assert (BV : Rabs (v * g) <= 1001 / 1000 * (X + Y) + 5 * eta64).
    { replace (v * g) with (S + (v * g - S)) by ring. eapply Rle_trans; [apply Rabs_triang|]. rewrite u64_val in *. lra. }
    assert (Bv : Rabs v <= big64).
    { destruct Rg as [Lg _]. rewrite (Rabs_pos_eq g) in Lg by lra. pose proof (pow2_pos (-60)).
      rewrite Rabs_mult, (Rabs_pos_eq g) in BV by lra. apply Rmult_le_reg_r with g; [lra|].
      apply Rle_trans with (powerRZ 2 230); [lra|]. apply Rle_trans with (big64 * powerRZ 2 (-60)); [unfold big64; rewrite pow2_mul; apply pow2_le; lia|].
      apply Rmult_le_compat_l; [pose proof big_pos; lra|exact Lg]. }
    destruct (sf_div_near num fg Fn Fg ltac:(lra) Bv) as [Fq Eq]. change (sf_div num fg) with q in Fq, Eq. fold v in Eq.
    split; [apply sdiv64; [exact Fg|lra]|]. split; [exact Fq|].
    (* scale by g *)
    apply Rmult_le_reg_r with g; [exact Pg|].
    replace (Rabs (fval q - ((1 + r) * A1 - r * A2)) * g) with (Rabs (fval q * g - S)).
    2:{ transitivity (Rabs (fval q - ((1 + r) * A1 - r * A2)) * Rabs g); [|rewrite (Rabs_pos_eq g) by lra; reflexivity]. rewrite <- Rabs_mult. f_equal. unfold S, r, w, g. field. unfold g in Pg. lra. }
    replace (fval q * g - S) with ((fval q - v) * g + (v * g - S)) by ring. eapply Rle_trans; [apply Rabs_triang|].
    rewrite (Rabs_mult (fval q - v)), (Rabs_pos_eq g) by lra.
    assert (QG : Rabs (fval q - v) * g <= 1002 / 1000 * (u64 * X) + 1002 / 1000 * (u64 * Y) + eta64 + eta64 * g).
    { apply Rle_trans with ((u64 * Rabs v + eta64) * g); [apply Rmult_le_compat_r; lra|]. rewrite Rmult_plus_distr_r.
      replace (u64 * Rabs v * g) with (u64 * Rabs (v * g)) by (rewrite Rabs_mult, (Rabs_pos_eq g) by lra; ring).
      assert (u64 * Rabs (v * g) <= u64 * (1001 / 1000 * (X + Y) + 5 * eta64)) by (apply Rmult_le_compat_l; lra).
      assert (u64 * eta64 <= / 1000 * eta64) by (apply Rmult_le_compat_r; [lra|rewrite u64_val; lra]). lra. }
    assert (eg : eta64 * g <= / 1000 * (T64 * g)) by (replace (/ 1000 * (T64 * g)) with (/ 1000 * T64 * g) by ring; apply Rmult_le_compat_r; lra).
    assert (EY : u64 * (r * Rabs A2) * g = u64 * Y) by (unfold Y, r, g; field; unfold g in Pg; lra).
    assert (EX : u64 * X <= 2 * (u64 * Rabs A1 * g)).
    { unfold X. pose proof (Rabs_pos A1). assert (w <= 2 * g) by (unfold w, g; lra).
      assert (w * Rabs A1 <= 2 * g * Rabs A1) by (apply Rmult_le_compat_r; lra).
      assert (u64 * (w * Rabs A1) <= u64 * (2 * g * Rabs A1)) by (apply Rmult_le_compat_l; lra). lra. }
    pose proof (Rmult_lt_0_compat _ _ T64_pos Pg). rewrite !Rmult_plus_distr_r.
    replace (63 / 10 * (u64 * (r * Rabs A2)) * g) with (63 / 10 * (u64 * Y)) by (rewrite <- EY; ring).
    replace (165 / 10 * (u64 * Rabs A1) * g) with (165 / 10 * (u64 * Rabs A1 * g)) by ring. lra.
  Qed.

  Lemma end_round : exists fd, pchip_end fh1 fh2 fdl1 fdl2 = Ok fd /\ slope64 fd (slope_end h1 h2 dl1 dl2) dl1.
  Proof.
    pose proof (s_hpos _ _ _ _ S1) as P1. pose proof (s_hpos _ _ _ _ S2) as P2. pose proof T64_pos as tp. pose proof u64_pos as up.
    destruct q_ok as (Eq & Fq & Bq). pose proof (s_fin _ _ _ _ S1) as FA1. pose proof (s_fin _ _ _ _ S2) as FA2. destruct eta_T as [eT _].
    destruct fl_three as [F3 E3].
    assert (Pg : 0 < g) by (apply g_ok).
    set (f3 := mul (lit 3 0) fdl1 : f64).
    assert (B3 : finite64 f3 /\ Rabs (fval f3 - 3 * A1) <= 31 / 10 * (u64 * Rabs A1) + T64).
    { unfold f3. revert F3 E3. change (mul (lit 3 0) fdl1 : f64) with (sf_mul (lit 3 0 : f64) fdl1). generalize (lit 3 0 : f64). intros c F3 E3. destruct (sf_mul_near c fdl1 F3 FA1) as [F E].
      - rewrite E3, Rabs_mult, (Rabs_pos_eq 3) by lra. apply Rle_trans with (powerRZ 2 2 * powerRZ 2 161); [|rewrite pow2_mul; unfold big64; apply pow2_le; lia].
        apply Rmult_le_compat; try lra; [apply Rabs_pos|simpl; lra|apply (fdl_bound _ _ _ _ S1)].
      - split; [exact F|]. rewrite E3 in E. fold A1 in E. eapply Rle_trans; [exact E|]. rewrite Rabs_mult, (Rabs_pos_eq 3) by lra.
        pose proof (Rmult_le_pos _ _ (Rlt_le _ _ up) (Rabs_pos A1)). lra. }
    destruct B3 as [Ff3 B3].
    assert (HL : exists fd, pchip_end fh1 fh2 fdl1 fdl2 = Ok fd /\ finite64 fd /\ limited (fval q) (fval f3) A1 A2 (fval fd)).
    { unfold pchip_end. fold fw fg n1 n2 num f3. rewrite Eq. cbn [bind]. eexists. split; [reflexivity|].
      pose proof (sign_eqb64 q fdl1 Fq FA1) as K1. pose proof (sign_eqb64 fdl1 fdl2 FA1 FA2) as K2. fold A1 in K1, K2. fold A2 in K2.
      destruct (SFabs_exact q Fq) as [FQ EQ]. destruct (SFabs_exact f3 Ff3) as [FF EF].
      assert (K3 : ltb (fabs f3) (fabs q) = Rlt_bool (Rabs (fval f3)) (Rabs (fval q))).
      { change (ltb (fabs f3) (fabs q)) with (SFltb (SFabs f3) (SFabs q)). rewrite ltb_val by assumption. rewrite EQ, EF. reflexivity. }
      rewrite K3. destruct (eqb (sign q) (sign fdl1)); cbn [negb].
      - destruct (proj1 K1 eq_refl) as [Pq|[Z1 Z2]].
        + destruct (eqb (sign fdl1) (sign fdl2)); cbn [negb andb].
          * split; [exact Fq|]. right; left. split; [exact Pq|]. split; [|reflexivity]. destruct (proj1 K2 eq_refl) as [H|[H _]]; [exact H|]. rewrite H, Rmult_0_r in Pq. lra.
          * assert (A1 * A2 <= 0) by (apply Rnot_lt_le; intros H; pose proof (proj2 K2 (or_introl H)); discriminate).
            destruct (Rlt_bool_spec (Rabs (fval f3)) (Rabs (fval q))); [split; [exact Ff3|right; right; left]|split; [exact Fq|right; right; right]]; auto.
        + assert (C : (if negb (eqb (sign fdl1) (sign fdl2)) && Rlt_bool (Rabs (fval f3)) (Rabs (fval q)) then f3 else q) = q :> f64).
          { rewrite (Rlt_bool_false (Rabs (fval f3)) (Rabs (fval q))) by (rewrite Z1, Rabs_R0; apply Rabs_pos). rewrite andb_false_r. reflexivity. }
          rewrite C. split; [exact Fq|]. left. rewrite Z1. split; [lra|reflexivity].
      - split; [apply fl_zero|]. left. split; [|apply fl_zero]. apply Rnot_lt_le; intros H; pose proof (proj2 K1 (or_introl H)); discriminate. }
    destruct HL as (fd & Efd & Ffd & HL). exists fd. split; [exact Efd|]. split; [exact Ffd|].
    pose proof (endA r T64 r_range ltac:(lra) A1 A2 (fval q) (fval f3) (fval fd) Bq B3 HL) as GA.
    rewrite slope_end_clip by assumption.
    replace (((2 * h1 + h2) * dl1 - h1 * dl2) / (h1 + h2)) with ((1 + r) * dl1 - r * dl2) by (unfold r, g; field; unfold g in Pg; lra).
    set (Q := clip3 ((1 + r) * A1 - r * A2) A1) in *. set (Q' := clip3 ((1 + r) * dl1 - r * dl2) dl1).
    replace (fval fd - Q') with ((fval fd - Q) + (Q - Q')) by ring. eapply Rle_trans; [apply Rabs_triang|].
    destruct (s_or _ _ _ _ S1) as [[L1 R1]|[L1 R1]].
    - assert (B1 : Rabs (A1 - dl1) <= 305 / 100 * (u64 * Rabs dl1)).
      { destruct R1 as [_ (e & E & B)]. unfold A1. rewrite E. replace (dl1 * (1 + e) - dl1) with (dl1 * e) by ring. rewrite Rabs_mult.
        apply Rle_trans with (Rabs dl1 * (304 / 100 * u64)); [apply Rmult_le_compat_l; [apply Rabs_pos|exact B]|].
        pose proof (Rmult_le_pos _ _ (Rlt_le _ _ up) (Rabs_pos dl1)). lra. }
      assert (B2 : Rabs (A2 - dl2) <= 305 / 100 * (u64 * Rabs dl2) + 3 * T64).
      { pose proof (Rmult_le_pos _ _ (Rlt_le _ _ up) (Rabs_pos dl2)). destruct (s_or _ _ _ _ S2) as [[_ [_ (e & E & B)]]|[L2 R2]].
        - unfold A2. rewrite E. replace (dl2 * (1 + e) - dl2) with (dl2 * e) by ring. rewrite Rabs_mult.
          apply Rle_trans with (Rabs dl2 * (304 / 100 * u64)); [apply Rmult_le_compat_l; [apply Rabs_pos|exact B]|]. lra.
        - fold A2 in R2. unfold Rminus. eapply Rle_trans; [apply Rabs_triang|]. rewrite Rabs_Ropp. lra. }
      pose proof (endB r (3 * T64) r_range ltac:(lra) A1 A2 dl1 dl2 B1 B2) as GB. fold Q Q' in GB.
      assert (RA : Rabs A1 <= 1001 / 1000 * Rabs dl1).
      { replace A1 with (dl1 + (A1 - dl1)) by ring. eapply Rle_trans; [apply Rabs_triang|]. pose proof (Rabs_pos dl1). rewrite u64_val in *. lra. }
      assert (u64 * Rabs A1 <= u64 * (1001 / 1000 * Rabs dl1)) by (apply Rmult_le_compat_l; lra).
      pose proof (Rmult_le_pos _ _ (Rlt_le _ _ up) (Rabs_pos dl1)). lra.
    - fold A1 in R1. pose proof (clip3_bound ((1 + r) * A1 - r * A2) A1) as C1. pose proof (clip3_bound ((1 + r) * dl1 - r * dl2) dl1) as C2. fold Q in C1. fold Q' in C2.
      assert (Rabs (Q - Q') <= 9 * T64) by (unfold Rminus; eapply Rle_trans; [apply Rabs_triang|]; rewrite Rabs_Ropp; lra).
      assert (u64 * Rabs A1 <= u64 * (2 * T64)) by (apply Rmult_le_compat_l; lra).
      pose proof (Rmult_le_pos _ _ (Rlt_le _ _ up) (Rabs_pos dl1)).
      assert (u64 * T64 <= / 1000 * T64) by (apply Rmult_le_compat_r; [lra|rewrite u64_val; lra]). lra.
  Qed.
End End.
