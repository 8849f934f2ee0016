(** * Rounding of the pieces of the PCHIP interpolant *)
From Coq Require Import ZArith Reals Lra Lia Bool SpecFloat List Psatz.
From Flocq Require Import Core BinarySingleNaN.
From Verif Require Import Num SF S_float P_float P_fl P_brent64 P_linear64.
Import ListNotations.
Local Open Scope R_scope.

Lemma u64_val : u64 = / 9007199254740992. Proof. reflexivity. Qed.
Lemma tiny_eta a b : (-1075 + a <= -100 + b)%Z -> eta64 * powerRZ 2 a <= / 1000 * (u64 * powerRZ 2 b).
Proof.
  intros H. unfold eta64. rewrite pow2_mul. apply Rle_trans with (powerRZ 2 (-100) * powerRZ 2 b).
  - rewrite pow2_mul. apply pow2_le. exact H.
  - rewrite <- Rmult_assoc. apply Rmult_le_compat_r; [left; apply pow2_pos|].
    unfold u64. rewrite <- (bpow_powerRZ Zaux.radix2). simpl. lra.
Qed.

(** ** Relative errors *)
(** z is v up to k units of relative error *)
Definition rl (k : R) (z : f64) (v : R) : Prop := finite64 z /\ exists r, fval z = v * (1 + r) /\ Rabs r <= k * u64.
Definition normal (v : R) : Prop := powerRZ 2 (-900) <= Rabs v <= powerRZ 2 900.

Lemma rl_mono k l z v : k <= l -> rl k z v -> rl l z v.
Proof.
  intros H [F (r & E & B)]. split; [exact F|]. exists r. split; [exact E|]. eapply Rle_trans; [exact B|].
  apply Rmult_le_compat_r; [left; apply u64_pos|exact H].
Qed.
Lemma rl_exact z : finite64 z -> rl 0 z (fval z).
Proof. intros F. split; [exact F|]. exists 0. split; [ring|]. rewrite Rabs_R0. lra. Qed.

Lemma near_rl z v w k r : near z v -> v = w * (1 + r) -> Rabs r <= k * u64 -> 0 <= k <= 1000 -> normal w -> rl (k + 101 / 100) z w.
Proof.
  intros [F E] Hv Hr Hk [N1 N2]. split; [exact F|]. pose proof (pow2_pos (-900)) as P.
  assert (W : w <> 0) by (intros Z; rewrite Z, Rabs_R0 in N1; lra).
  exists (fval z / w - 1). split; [field; exact W|].
  replace (fval z / w - 1) with ((fval z - v) * / w + r) by (rewrite Hv; field; exact W).
  eapply Rle_trans; [apply Rabs_triang|]. rewrite Rabs_mult, Rabs_inv.
  assert (A : Rabs (fval z - v) * / Rabs w <= 101 / 100 * u64).
  { apply Rmult_le_reg_r with (Rabs w); [lra|]. rewrite Rmult_assoc, Rinv_l, Rmult_1_r by lra.
    eapply Rle_trans; [exact E|]. rewrite Hv, Rabs_mult.
    assert (Rabs (1 + r) <= 1001 / 1000).
    { apply Rabs_le. apply Rabs_le_inv in Hr. assert (k * u64 <= 1000 * u64) by (apply Rmult_le_compat_r; [left; apply u64_pos|lra]).
      rewrite u64_val in *. lra. }
    assert (Rabs w * Rabs (1 + r) <= Rabs w * (1001 / 1000)) by (apply Rmult_le_compat_l; lra).
    assert (u64 * (Rabs w * Rabs (1 + r)) <= u64 * (Rabs w * (1001 / 1000))) by (apply Rmult_le_compat_l; [left; apply u64_pos|lra]).
    pose proof (tiny_eta 0 (-900) ltac:(lia)) as T. change (powerRZ 2 0) with 1 in T.
    assert (u64 * powerRZ 2 (-900) <= u64 * Rabs w) by (apply Rmult_le_compat_l; [left; apply u64_pos|lra]).
    assert (0 <= u64 * Rabs w) by (apply Rmult_le_pos; [left; apply u64_pos|lra]). lra. }
  lra.
Qed.

Lemma small_r k r : Rabs r <= k * u64 -> 0 <= k <= 1000 -> - / 1000000 <= r <= / 1000000.
Proof.
  intros Hr Hk. apply Rabs_le_inv in Hr. assert (k * u64 <= 1000 * u64) by (apply Rmult_le_compat_r; [left; apply u64_pos|lra]).
  rewrite u64_val in *. lra.
Qed.
Lemma normal_big w r : normal w -> - / 1000000 <= r <= / 1000000 -> Rabs (w * (1 + r)) <= big64.
Proof.
  intros [_ N] Hr. rewrite Rabs_mult. assert (Rabs (1 + r) <= 2) by (apply Rabs_le; lra).
  apply Rle_trans with (powerRZ 2 900 * powerRZ 2 1).
  - apply Rmult_le_compat; try apply Rabs_pos; try assumption. simpl. lra.
  - rewrite pow2_mul. unfold big64. apply pow2_le. lia.
Qed.

Lemma rl_add k x v y w : rl k x v -> rl k y w -> 0 <= k <= 1000 -> 0 <= v * w -> normal (v + w) -> rl (k + 101 / 100) (add x y : f64) (v + w).
Proof.
  intros [Fx (r & Ex & Br)] [Fy (s & Ey & Bs)] Hk Hvw HN. change (add x y : f64) with (sf_add x y).
  assert (NZ : v + w <> 0) by (intros Z; destruct HN as [N _]; rewrite Z, Rabs_R0 in N; pose proof (pow2_pos (-900)); lra).
  set (q := (v * r + w * s) / (v + w)).
  assert (Eq : fval x + fval y = (v + w) * (1 + q)) by (rewrite Ex, Ey; unfold q; field; exact NZ).
  assert (Bq : Rabs q <= k * u64).
  { unfold q, Rdiv. rewrite Rabs_mult, Rabs_inv. apply Rmult_le_reg_r with (Rabs (v + w)); [apply Rabs_pos_lt; exact NZ|].
    rewrite Rmult_assoc, Rinv_l, Rmult_1_r by (apply Rabs_no_R0; exact NZ).
    assert (E : Rabs (v + w) = Rabs v + Rabs w).
    { unfold Rabs. destruct (Rcase_abs v), (Rcase_abs w), (Rcase_abs (v + w)); try lra; nra. }
    rewrite E. eapply Rle_trans; [apply Rabs_triang|]. rewrite !Rabs_mult.
    assert (Rabs v * Rabs r <= Rabs v * (k * u64)) by (apply Rmult_le_compat_l; [apply Rabs_pos|exact Br]).
    assert (Rabs w * Rabs s <= Rabs w * (k * u64)) by (apply Rmult_le_compat_l; [apply Rabs_pos|exact Bs]). lra. }
  apply (near_rl (sf_add x y) (fval x + fval y) (v + w) k q); try assumption.
  apply sf_add_near; try assumption. rewrite Eq. apply normal_big; [exact HN|]. exact (small_r _ _ Bq Hk).
Qed.

Lemma rl_mul k l x v y w : rl k x v -> rl l y w -> 0 <= k <= 100 -> 0 <= l <= 100 -> normal (v * w) -> rl (k + l + 102 / 100) (mul x y : f64) (v * w).
Proof.
  intros [Fx (r & Ex & Br)] [Fy (s & Ey & Bs)] Hk Hl HN. change (mul x y : f64) with (sf_mul x y).
  assert (Eq : fval x * fval y = (v * w) * (1 + (r + s + r * s))) by (rewrite Ex, Ey; ring).
  assert (Bq : Rabs (r + s + r * s) <= (k + l + / 100) * u64).
  { assert (Rabs (r * s) <= / 100 * u64).
    { rewrite Rabs_mult. apply Rle_trans with (k * u64 * / 1000000).
      - apply Rmult_le_compat; try apply Rabs_pos; [exact Br|]. apply Rabs_le. apply (small_r l); lra.
      - assert (k * u64 <= 100 * u64) by (apply Rmult_le_compat_r; [left; apply u64_pos|lra]). pose proof u64_pos. lra. }
    pose proof (Rabs_triang (r + s) (r * s)). pose proof (Rabs_triang r s). lra. }
  replace (k + l + 102 / 100) with ((k + l + / 100) + 101 / 100) by field.
  apply (near_rl (sf_mul x y) (fval x * fval y) (v * w) (k + l + / 100) (r + s + r * s)); try assumption; [|lra].
  apply sf_mul_near; try assumption. rewrite Eq. apply normal_big; [exact HN|]. apply (small_r (k + l + / 100)); [exact Bq|lra].
Qed.

Lemma rl_div k l x v y w : rl k x v -> rl l y w -> 0 <= k <= 100 -> 0 <= l <= 100 -> w <> 0 -> normal (v / w) ->
  rl (k + l + 102 / 100) (div x y : f64) (v / w) /\ fval y <> 0.
Proof.
  intros [Fx (r & Ex & Br)] [Fy (s & Ey & Bs)] Hk Hl Hw HN. change (div x y : f64) with (sf_div x y).
  pose proof (small_r l s Bs ltac:(lra)) as Ss.
  assert (Ny : fval y <> 0) by (rewrite Ey; apply Rmult_integral_contrapositive_currified; lra).
  split; [|exact Ny].
  assert (Eq : fval x / fval y = (v / w) * (1 + (r - s) / (1 + s))) by (rewrite Ex, Ey; field; split; lra).
  assert (Bq : Rabs ((r - s) / (1 + s)) <= (k + l + / 100) * u64).
  { unfold Rdiv. rewrite Rabs_mult, Rabs_inv, (Rabs_pos_eq (1 + s)) by lra.
    apply Rmult_le_reg_r with (1 + s); [lra|]. rewrite Rmult_assoc, Rinv_l, Rmult_1_r by lra.
    assert (Rabs (r - s) <= (k + l) * u64).
    { replace (r - s) with (r + - s) by ring. eapply Rle_trans; [apply Rabs_triang|]. rewrite Rabs_Ropp. lra. }
    assert ((k + l + / 100) * u64 * (1 - / 1000000) <= (k + l + / 100) * u64 * (1 + s)).
    { apply Rmult_le_compat_l; [|lra]. apply Rmult_le_pos; [lra|left; apply u64_pos]. }
    assert ((k + l) * u64 <= 200 * u64) by (apply Rmult_le_compat_r; [left; apply u64_pos|lra]). pose proof u64_pos. lra. }
  replace (k + l + 102 / 100) with ((k + l + / 100) + 101 / 100) by field.
  apply (near_rl (sf_div x y) (fval x / fval y) (v / w) (k + l + / 100) ((r - s) / (1 + s))); try assumption; [|lra].
  apply sf_div_near; try assumption. rewrite Eq. apply normal_big; [exact HN|]. apply (small_r (k + l + / 100)); [exact Bq|lra].
Qed.

(** ** Errors relative to a scale *)
Section Scaled.
  Variables (B h : R).
  Hypothesis HB : powerRZ 2 (-500) <= B <= powerRZ 2 100.
  Hypothesis Hh : powerRZ 2 (-60) <= h <= powerRZ 2 60.

  (** z times h^j is v up to k units of B *)
  Definition sc (k : R) (j : nat) (z : f64) (v : R) : Prop := finite64 z /\ Rabs (fval z * h ^ j - v) <= k * (u64 * B).

  Lemma B_pos : 0 < B. Proof. pose proof (pow2_pos (-500)). lra. Qed.
  Lemma uB_pos : 0 < u64 * B. Proof. apply Rmult_lt_0_compat; [apply u64_pos|apply B_pos]. Qed.
  Lemma uB_B k : k <= 10000 -> k * (u64 * B) <= / 100000 * B.
  Proof. intros H. pose proof B_pos. pose proof uB_pos. assert (k * (u64 * B) <= 10000 * (u64 * B)) by (apply Rmult_le_compat_r; lra). rewrite u64_val in *. lra. Qed.
  Lemma h_pos : 0 < h. Proof. pose proof (pow2_pos (-60)). lra. Qed.
  Lemma hj_range j : (j <= 3)%nat -> powerRZ 2 (-200) <= h ^ j <= powerRZ 2 200.
  Proof.
    intros Hj. assert (P1 : powerRZ 2 (-60) <= 1) by (change 1 with (powerRZ 2 0); apply pow2_le; lia).
    assert (P2 : 1 <= powerRZ 2 60) by (change 1 with (powerRZ 2 0); apply pow2_le; lia). pose proof (pow2_pos (-60)).
    assert (E3 : forall x, x ^ 3 = x * (x * x)) by (intros x; ring).
    assert (A : powerRZ 2 (-60) ^ 3 <= h ^ j <= powerRZ 2 60 ^ 3).
    { split.
      - apply Rle_trans with (powerRZ 2 (-60) ^ j); [|apply pow_incr; lra].
        assert (1 <= / powerRZ 2 (-60)) by (rewrite <- Rinv_1; apply Rinv_le; lra).
        replace (powerRZ 2 (-60) ^ 3) with (/ (/ powerRZ 2 (-60)) ^ 3) by (rewrite <- pow_inv, Rinv_inv; reflexivity).
        replace (powerRZ 2 (-60) ^ j) with (/ (/ powerRZ 2 (-60)) ^ j) by (rewrite <- pow_inv, Rinv_inv; reflexivity).
        apply Rinv_le; [apply pow_lt; lra|]. apply Rle_pow; assumption.
      - apply Rle_trans with (powerRZ 2 60 ^ j); [apply pow_incr; pose proof h_pos; lra|]. apply Rle_pow; assumption. }
    split.
    - apply Rle_trans with (powerRZ 2 (-60) ^ 3); [|apply A]. rewrite E3, !pow2_mul. apply pow2_le. lia.
    - apply Rle_trans with (powerRZ 2 60 ^ 3); [apply A|]. rewrite E3, !pow2_mul. apply pow2_le. lia.
  Qed.
  Lemma eta_hj j : (j <= 3)%nat -> eta64 * h ^ j <= / 1000 * (u64 * B).
  Proof.
    intros Hj. destruct (hj_range j Hj) as [_ H]. apply Rle_trans with (eta64 * powerRZ 2 200).
    - apply Rmult_le_compat_l; [left; apply eta64_pos|exact H].
    - eapply Rle_trans; [apply (tiny_eta 200 (-500)); lia|]. apply Rmult_le_compat_l; [lra|].
      apply Rmult_le_compat_l; [left; apply u64_pos|apply HB].
  Qed.
  Lemma big_scaled j z m : (j <= 3)%nat -> 0 <= m <= 1000 -> Rabs (z * h ^ j) <= m * B -> Rabs z <= big64.
  Proof.
    intros Hj Hm H. destruct (hj_range j Hj) as [L _]. pose proof (pow2_pos (-200)) as P. pose proof B_pos.
    rewrite Rabs_mult, (Rabs_pos_eq (h ^ j)) in H by lra.
    apply Rmult_le_reg_r with (h ^ j); [lra|]. eapply Rle_trans; [exact H|].
    apply Rle_trans with (powerRZ 2 10 * powerRZ 2 100).
    - apply Rmult_le_compat; try lra. simpl. lra.
    - apply Rle_trans with (big64 * powerRZ 2 (-200)).
      + unfold big64. rewrite !pow2_mul. apply pow2_le. lia.
      + apply Rmult_le_compat_l; [pose proof big_pos; lra|exact L].
  Qed.

  Lemma sc_mono k l j z v : k <= l -> sc k j z v -> sc l j z v.
  Proof. intros H [F E]. split; [exact F|]. eapply Rle_trans; [exact E|]. apply Rmult_le_compat_r; [left; apply uB_pos|exact H]. Qed.
  Lemma sc_le k l j z v : sc k j z v -> k <= l -> sc l j z v.
  Proof. intros H1 H2. exact (sc_mono k l j z v H2 H1). Qed.
  Lemma sc_exact j z : finite64 z -> sc 0 j z (fval z * h ^ j).
  Proof. intros F. split; [exact F|]. replace (fval z * h ^ j - fval z * h ^ j) with 0 by ring. rewrite Rabs_R0. lra. Qed.

  Lemma sc_near k j z v w m : (j <= 3)%nat -> near z v -> Rabs (v * h ^ j - w) <= k * (u64 * B) -> Rabs w <= m * B -> 0 <= k <= 10000 -> 0 <= m ->
    sc (k + m + / 100) j z w.
  Proof.
    intros Hj [F E] A M Hk Hm. split; [exact F|]. destruct (hj_range j Hj) as [P _]. pose proof (pow2_pos (-200)) as Q.
    replace (fval z * h ^ j - w) with ((fval z - v) * h ^ j + (v * h ^ j - w)) by ring.
    eapply Rle_trans; [apply Rabs_triang|]. rewrite Rabs_mult, (Rabs_pos_eq (h ^ j)) by lra.
    assert (Rabs (fval z - v) * h ^ j <= (u64 * Rabs v + eta64) * h ^ j) by (apply Rmult_le_compat_r; [lra|exact E]).
    assert (V : Rabs v * h ^ j <= (m + / 100000) * B).
    { rewrite <- (Rabs_pos_eq (h ^ j)), <- Rabs_mult by lra. replace (v * h ^ j) with (w + (v * h ^ j - w)) by ring.
      eapply Rle_trans; [apply Rabs_triang|]. pose proof (uB_B k ltac:(lra)). lra. }
    assert (u64 * (Rabs v * h ^ j) <= u64 * ((m + / 100000) * B)) by (apply Rmult_le_compat_l; [left; apply u64_pos|exact V]).
    pose proof (eta_hj j Hj). pose proof uB_pos. lra.
  Qed.

  Lemma sc_big k j v w m : (j <= 3)%nat -> Rabs (v * h ^ j - w) <= k * (u64 * B) -> Rabs w <= m * B -> 0 <= k <= 10000 -> 0 <= m <= 900 -> Rabs v <= big64.
  Proof.
    intros Hj A M Hk Hm. apply (big_scaled j v (m + 1) Hj); [lra|]. replace (v * h ^ j) with (w + (v * h ^ j - w)) by ring.
    eapply Rle_trans; [apply Rabs_triang|]. pose proof (uB_B k ltac:(lra)). pose proof B_pos. lra.
  Qed.

  Lemma sc_add k l j x v y w m : (j <= 3)%nat -> sc k j x v -> sc l j y w -> 0 <= k <= 1000 -> 0 <= l <= 1000 -> 0 <= m <= 900 -> Rabs (v + w) <= m * B ->
    sc (k + l + m + / 100) j (add x y : f64) (v + w).
  Proof.
    intros Hj [Fx Ex] [Fy Ey] Hk Hl Hm M. change (add x y : f64) with (sf_add x y).
    assert (A : Rabs ((fval x + fval y) * h ^ j - (v + w)) <= (k + l) * (u64 * B)).
    { replace ((fval x + fval y) * h ^ j - (v + w)) with ((fval x * h ^ j - v) + (fval y * h ^ j - w)) by ring.
      eapply Rle_trans; [apply Rabs_triang|]. lra. }
    apply (sc_near (k + l) j (sf_add x y) (fval x + fval y) (v + w) m Hj); try lra.
    apply sf_add_near; try assumption. apply (sc_big (k + l) j _ (v + w) m); try assumption; lra.
  Qed.
  Lemma sc_sub k l j x v y w m : (j <= 3)%nat -> sc k j x v -> sc l j y w -> 0 <= k <= 1000 -> 0 <= l <= 1000 -> 0 <= m <= 900 -> Rabs (v - w) <= m * B ->
    sc (k + l + m + / 100) j (sub x y : f64) (v - w).
  Proof.
    intros Hj [Fx Ex] [Fy Ey] Hk Hl Hm M. change (sub x y : f64) with (sf_sub x y).
    assert (A : Rabs ((fval x - fval y) * h ^ j - (v - w)) <= (k + l) * (u64 * B)).
    { replace ((fval x - fval y) * h ^ j - (v - w)) with ((fval x * h ^ j - v) + - (fval y * h ^ j - w)) by ring.
      eapply Rle_trans; [apply Rabs_triang|]. rewrite Rabs_Ropp. lra. }
    apply (sc_near (k + l) j (sf_sub x y) (fval x - fval y) (v - w) m Hj); try lra.
    apply sf_sub_near; try assumption. apply (sc_big (k + l) j _ (v - w) m); try assumption; lra.
  Qed.

  Variables (fh fs : f64) (th : R).
  Hypothesis Hfh : rl (101 / 100) fh h.
  Hypothesis Fs : finite64 fs.
  Hypothesis Hth : 0 <= th <= 1.
  Hypothesis Hfs : Rabs (fval fs - th * h) <= 101 / 100 * (u64 * h).

  Lemma fh_nz : fval fh <> 0.
  Proof.
    destruct Hfh as [_ (r & E & Br)]. pose proof (small_r _ _ Br ltac:(lra)). rewrite E. pose proof h_pos.
    apply Rmult_integral_contrapositive_currified; lra.
  Qed.

  Lemma sc_div k j x v m : (S j <= 3)%nat -> sc k j x v -> 0 <= k <= 1000 -> 0 <= m <= 900 -> Rabs v <= m * B ->
    sc (k + 202 / 100 * m + 2 / 100) (S j) (div x fh : f64) v.
  Proof.
    intros Hj [Fx Ex] Hk Hm M. change (div x fh : f64) with (sf_div x fh). pose proof fh_nz as Nz.
    destruct Hfh as [Ff (r & E & Br)]. pose proof (small_r _ _ Br ltac:(lra)) as Sr. pose proof h_pos as hp. pose proof uB_pos as up. pose proof B_pos as bp.
    set (K := k + 101 / 100 * m + / 100).
    assert (A : Rabs (fval x / fval fh * h ^ S j - v) <= K * (u64 * B)).
    { rewrite E. cbn [pow]. set (X := fval x * h ^ j) in *.
      replace (fval x / (h * (1 + r)) * (h * h ^ j) - v) with ((X - v) / (1 + r) - v * r / (1 + r)) by (unfold X; field; split; lra).
      assert (I : / (1 + r) <= 1 + 2 / 1000000).
      { apply Rmult_le_reg_r with (1 + r); [lra|]. rewrite Rinv_l by lra. nra. }
      assert (I0 : 0 < / (1 + r)) by (apply Rinv_0_lt_compat; lra).
      replace ((X - v) / (1 + r) - v * r / (1 + r)) with (((X - v) + - (v * r)) * / (1 + r)) by (field; lra).
      rewrite Rabs_mult, (Rabs_pos_eq (/ (1 + r))) by lra.
      assert (J : Rabs (X - v + - (v * r)) <= (k + 101 / 100 * m) * (u64 * B)).
      { eapply Rle_trans; [apply Rabs_triang|]. rewrite Rabs_Ropp, Rabs_mult.
        assert (Rabs v * Rabs r <= m * B * (101 / 100 * u64)) by (apply Rmult_le_compat; try apply Rabs_pos; lra). lra. }
      apply Rle_trans with ((k + 101 / 100 * m) * (u64 * B) * (1 + 2 / 1000000)).
      - apply Rmult_le_compat; try apply Rabs_pos; lra.
      - unfold K. replace ((k + 101 / 100 * m) * (u64 * B) * (1 + 2 / 1000000)) with ((k + 101 / 100 * m) * (1 + 2 / 1000000) * (u64 * B)) by ring.
        apply Rmult_le_compat_r; lra. }
    apply (sc_mono (K + m + / 100)); [unfold K; lra|].
    apply (sc_near K (S j) (sf_div x fh) (fval x / fval fh) v m Hj); try exact A; try exact M; try (unfold K; lra).
    apply sf_div_near; try assumption. apply (sc_big K (S j) _ v m); try assumption; unfold K; lra.
  Qed.

  Lemma sc_mul k j x v m n : (S j <= 3)%nat -> sc k (S j) x v -> 0 <= k <= 1000 -> 0 <= m <= 900 -> 0 <= n <= 900 -> Rabs v <= m * B -> Rabs (v * th) <= n * B ->
    sc (k + 101 / 100 * m + n + 2 / 100) j (mul x fs : f64) (v * th).
  Proof.
    intros Hj [Fx Ex] Hk Hm Hn M N. change (mul x fs : f64) with (sf_mul x fs). pose proof h_pos as hp. pose proof uB_pos as up. pose proof B_pos as bp.
    set (K := k + 101 / 100 * m + / 100).
    set (s := fval fs / h - th).
    assert (Es : fval fs = (th + s) * h) by (unfold s; field; lra).
    assert (Bs : Rabs s <= 101 / 100 * u64).
    { unfold s. replace (fval fs / h - th) with ((fval fs - th * h) * / h) by (field; lra). rewrite Rabs_mult, (Rabs_pos_eq (/ h)) by (left; apply Rinv_0_lt_compat; exact hp).
      apply Rmult_le_reg_r with h; [exact hp|]. rewrite Rmult_assoc, Rinv_l, Rmult_1_r by lra. lra. }
    pose proof (small_r _ _ Bs ltac:(lra)) as Ss.
    assert (A : Rabs (fval x * fval fs * h ^ j - v * th) <= K * (u64 * B)).
    { rewrite Es. set (X := fval x * h ^ S j) in *.
      replace (fval x * ((th + s) * h) * h ^ j - v * th) with ((X - v) * (th + s) + v * s) by (unfold X; cbn [pow]; ring).
      eapply Rle_trans; [apply Rabs_triang|]. rewrite !Rabs_mult.
      assert (Rabs (X - v) * Rabs (th + s) <= k * (u64 * B) * (1 + / 1000000)).
      { apply Rmult_le_compat; try apply Rabs_pos; [exact Ex|]. apply Rabs_le. lra. }
      assert (Rabs v * Rabs s <= m * B * (101 / 100 * u64)) by (apply Rmult_le_compat; try apply Rabs_pos; lra).
      assert (k * (u64 * B) <= 1000 * (u64 * B)) by (apply Rmult_le_compat_r; lra).
      unfold K. lra. }
    apply (sc_mono (K + n + / 100)); [unfold K; lra|].
    apply (sc_near K j (sf_mul x fs) (fval x * fval fs) (v * th) n ltac:(lia)); try exact A; try exact N; try (unfold K; lra).
    apply sf_mul_near; try assumption. apply (sc_big K j _ (v * th) n); try assumption; try lia; unfold K; lra.
  Qed.
End Scaled.

(** ** A cubic piece *)
Definition herm (p a0 a1 th : R) : R := th * a0 + th * th * (3 * p - 2 * a0 - a1) + th * th * th * (a0 + a1 - 2 * p).

Lemma Rabs_mul_le a b c d : Rabs a <= c -> Rabs b <= d -> Rabs (a * b) <= c * d.
Proof. intros. rewrite Rabs_mult. apply Rmult_le_compat; try apply Rabs_pos; assumption. Qed.

Section Piece.
  Variables (B h : R) (fh fs : f64) (th : R) (fdl fd0 fd1 fy : f64) (p x0 x1 M : R).
  Hypothesis HB : powerRZ 2 (-500) <= B <= powerRZ 2 100.
  Hypothesis Hh : powerRZ 2 (-60) <= h <= powerRZ 2 60.
  Hypothesis Hfh : rl (101 / 100) fh h.
  Hypothesis Fs : finite64 fs.
  Hypothesis Hth : 0 <= th <= 1.
  Hypothesis Hfs : Rabs (fval fs - th * h) <= 101 / 100 * (u64 * h).
  Hypothesis Hp : Rabs p <= B.
  Hypothesis H0 : 0 <= x0 <= 3.
  Hypothesis H1 : 0 <= x1 <= 3.
  Hypothesis Sdl : sc B h 4 1 fdl p.
  Hypothesis Sd0 : sc B h 60 1 fd0 (x0 * p).
  Hypothesis Sd1 : sc B h 60 1 fd1 (x1 * p).
  Hypothesis Fy : finite64 fy.
  Hypothesis HM : powerRZ 2 (-90) <= M <= powerRZ 2 90.
  Hypothesis HyM : Rabs (fval fy + herm p (x0 * p) (x1 * p) th) <= M.
  Hypothesis HBM : B <= 3 * M.

  Let dzz := div (sub fdl fd0) fh : f64.
  Let dzx := div (sub fd1 fdl) fh : f64.
  Let c3 := div (sub dzx dzz) fh : f64.
  Let c2 := sub (mul (lit 2 0) dzz) dzx : f64.
  Definition piece_y : f64 := add (mul (add (mul (add (mul (add (mul (lit 0 0) fs) c3) fs) c2) fs) fd0) fs) fy.

  Let p' := fval fdl * h ^ 1.
  Let a0 := fval fd0 * h ^ 1.
  Let a1 := fval fd1 * h ^ 1.

  Lemma close_p : exists e, p' = p + e /\ Rabs e <= 4 * (u64 * B).
  Proof. exists (p' - p). split; [ring|]. apply Sdl. Qed.
  Lemma close_0 : exists e, a0 = x0 * p + e /\ Rabs e <= 60 * (u64 * B).
  Proof. exists (a0 - x0 * p). split; [ring|]. apply Sd0. Qed.
  Lemma close_1 : exists e, a1 = x1 * p + e /\ Rabs e <= 60 * (u64 * B).
  Proof. exists (a1 - x1 * p). split; [ring|]. apply Sd1. Qed.

  (** a combination of the three is bounded by the combination of the exact values *)
  Lemma combo a b c m v : Rabs (a + b * x0 + c * x1) <= m -> Rabs a <= 10 -> Rabs b <= 10 -> Rabs c <= 10 ->
    v = a * p' + b * a0 + c * a1 -> Rabs v <= (m + / 1000) * B.
  Proof.
    intros Hm Ba Bb Bc ->. destruct close_p as (ep & -> & Ep). destruct close_0 as (e0 & -> & E0). destruct close_1 as (e1 & -> & E1).
    replace (a * (p + ep) + b * (x0 * p + e0) + c * (x1 * p + e1)) with ((a + b * x0 + c * x1) * p + (a * ep + b * e0 + c * e1)) by ring.
    pose proof (Rabs_mul_le _ _ _ _ Hm Hp). pose proof (Rabs_mul_le _ _ _ _ Ba Ep). pose proof (Rabs_mul_le _ _ _ _ Bb E0).
    pose proof (Rabs_mul_le _ _ _ _ Bc E1).
    eapply Rle_trans; [apply Rabs_triang|]. pose proof (Rabs_triang (a * ep + b * e0) (c * e1)). pose proof (Rabs_triang (a * ep) (b * e0)).
    pose proof (uB_B B HB 1240 ltac:(lra)). pose proof (B_pos B HB). lra.
  Qed.

  Lemma herm_factor : herm p (x0 * p) (x1 * p) th
    = (x0 * (th * ((1 - th) * (1 - th))) - x1 * (th * th * (1 - th)) + (th * th * (3 - 2 * th))) * p.
  Proof. unfold herm. ring. Qed.

  Lemma herm_close : Rabs (herm p' a0 a1 th - herm p (x0 * p) (x1 * p) th) <= 19 * (u64 * B).
  Proof.
    destruct close_p as (ep & -> & Ep). destruct close_0 as (e0 & -> & E0). destruct close_1 as (e1 & -> & E1).
    replace (herm (p + ep) (x0 * p + e0) (x1 * p + e1) th - herm p (x0 * p) (x1 * p) th)
      with ((th * th * (3 - 2 * th)) * ep + (th * ((1 - th) * (1 - th))) * e0 + - (th * th * (1 - th)) * e1) by (unfold herm; ring).
    assert (T1 : 0 <= th * (1 - th) <= / 4) by (pose proof (Rle_0_sqr (th - / 2)) as Sq; unfold Rsqr in Sq; split; [apply Rmult_le_pos; lra|lra]).
    assert (T2 : 0 <= th * th * (3 - 2 * th) <= 1) by nra.
    assert (T3 : 0 <= th * ((1 - th) * (1 - th))) by (apply Rmult_le_pos; [lra|apply Rle_0_sqr]).
    assert (T4 : 0 <= th * th * (1 - th)) by (apply Rmult_le_pos; [apply Rle_0_sqr|lra]).
    pose proof (Rabs_mul_le _ _ _ _ (Req_le _ _ (Rabs_pos_eq _ (proj1 T2))) Ep) as A1.
    pose proof (Rabs_mul_le _ _ _ _ (Req_le _ _ (Rabs_pos_eq _ T3)) E0) as A2.
    pose proof (Rabs_mul_le _ _ _ _ (Req_le _ _ (eq_trans (Rabs_Ropp _) (Rabs_pos_eq _ T4))) E1) as A3.
    eapply Rle_trans; [apply Rabs_triang|]. eapply Rle_trans; [apply Rplus_le_compat_r, Rabs_triang|].
    pose proof (uB_pos B HB) as U.
    assert (th * th * (3 - 2 * th) * (4 * (u64 * B)) <= 1 * (4 * (u64 * B))) by (apply Rmult_le_compat_r; lra).
    assert ((th * ((1 - th) * (1 - th)) + th * th * (1 - th)) * (60 * (u64 * B)) <= / 4 * (60 * (u64 * B))).
    { apply Rmult_le_compat_r; [lra|]. nra. }
    lra.
  Qed.

  Lemma double_exact (x : f64) v k : sc B h k 2 x v -> 0 <= k <= 1000 -> Rabs v <= 100 * B -> sc B h (2 * k) 2 (mul (lit 2 0) x : f64) (2 * v).
  Proof.
    intros [Fx Ex] Hk Hv. change (mul (lit 2 0) x : f64) with (sf_mul (lit 2 0) x).
    assert (Bg : Rabs (2 * fval x) <= big64).
    { apply (sc_big B h HB Hh (2 * k) 2 _ (2 * v) 200); try lra; try lia.
      - replace (2 * fval x * h ^ 2 - 2 * v) with (2 * (fval x * h ^ 2 - v)) by ring. rewrite Rabs_mult, (Rabs_pos_eq 2) by lra. lra.
      - rewrite Rabs_mult, (Rabs_pos_eq 2) by lra. lra. }
    destruct fl_two as [F2 E2].
    destruct (mul_val (lit 2 0 : f64) x F2 Fx) as [Fm Em].
    { rewrite E2. apply rnd_small. exact Bg. }
    split; [exact Fm|]. rewrite Em, E2. rewrite round_generic; [|apply valid_rnd_round_mode|apply double_format; exact Fx].
    replace (2 * fval x * h ^ 2 - 2 * v) with (2 * (fval x * h ^ 2 - v)) by ring. rewrite Rabs_mult, (Rabs_pos_eq 2) by lra. lra.
  Qed.

  Lemma zero_add k j (x : f64) v : sc B h k j x v -> sc B h k j (add (mul (lit 0 0) fs) x : f64) v.
  Proof.
    intros [Fx Ex].
    assert (Z1 : Rabs (rnd (fval (lit 0 0 : f64) * fval fs)) < bpow Zaux.radix2 1024).
    { rewrite (proj2 fl_zero), Rmult_0_l, rnd_zero, Rabs_R0. apply bpow_gt_0. }
    destruct (mul_val (lit 0 0 : f64) fs (proj1 fl_zero) Fs Z1) as [F0 E0].
    rewrite (proj2 fl_zero), Rmult_0_l, rnd_zero in E0. change (mul (lit 0 0) fs : f64) with (sf_mul (lit 0 0) fs).
    change (add (sf_mul (lit 0 0) fs) x : f64) with (sf_add (sf_mul (lit 0 0) fs) x).
    set (f0 := sf_mul (lit 0 0) fs) in *.
    assert (Z2 : Rabs (rnd (fval f0 + fval x)) < bpow Zaux.radix2 1024).
    { rewrite E0, Rplus_0_l, rnd_fval by exact Fx. apply fval_bound. exact Fx. }
    destruct (add_val f0 x F0 Fx Z2) as [F1 E1]. rewrite E0, Rplus_0_l, rnd_fval in E1 by exact Fx.
    split; [exact F1|]. rewrite E1. exact Ex.
  Qed.

  Ltac combo a b c m := apply (combo a b c m); [apply Rabs_le|apply Rabs_le|apply Rabs_le|apply Rabs_le|]; [|lra|lra|lra|ring].

  Lemma piece_round : finite64 piece_y /\ Rabs (fval piece_y - (fval fy + herm p (x0 * p) (x1 * p) th)) <= 1013 / 10 * (u64 * B) + 102 / 100 * (u64 * M).
  Proof.
    pose proof (sc_exact B h 1 fdl (proj1 Sdl)) as Xd. pose proof (sc_exact B h 1 fd0 (proj1 Sd0)) as X0. pose proof (sc_exact B h 1 fd1 (proj1 Sd1)) as X1.
    change (sc B h 0 1 fdl p') in Xd. change (sc B h 0 1 fd0 a0) in X0. change (sc B h 0 1 fd1 a1) in X1.
    assert (B1 : Rabs (p' - a0) <= (2 + / 1000) * B) by (combo 1 (-1) 0 2; lra).
    assert (B2 : Rabs (a1 - p') <= (2 + / 1000) * B) by (combo (-1) 0 1 2; lra).
    assert (B3 : Rabs (a1 - p' - (p' - a0)) <= (4 + / 1000) * B) by (combo (-2) 1 1 4; lra).
    assert (B4 : Rabs (2 * (p' - a0) - (a1 - p')) <= (6 + / 1000) * B) by (combo 3 (-2) (-1) 6; lra).
    set (v3 := a1 - p' - (p' - a0)) in *. set (v2 := 2 * (p' - a0) - (a1 - p')) in *.
    assert (Q1 : 0 <= th * th <= th) by nra. assert (Q2 : 0 <= th * (1 - th)) by nra.
    assert (B3t : Rabs (v3 * th) <= (4 + / 1000) * B).
    { apply (combo (-2 * th) th th 4); try (apply Rabs_le; lra); [|unfold v3; ring]. apply Rabs_le. nra. }
    assert (B5 : Rabs (v3 * th + v2) <= (6 + / 1000) * B).
    { apply (combo (3 - 2 * th) (th - 2) (th - 1) 6); try (apply Rabs_le; lra); [|unfold v3, v2; ring]. apply Rabs_le. nra. }
    assert (B5t : Rabs ((v3 * th + v2) * th) <= (6 + / 1000) * B).
    { pose proof (B_pos B HB). rewrite Rabs_mult, (Rabs_pos_eq th) by lra. apply Rle_trans with ((6 + / 1000) * B * 1); [|lra].
      apply Rmult_le_compat; try lra. apply Rabs_pos. }
    assert (G0 : 0 <= (1 - th) * (1 - th) <= 1) by nra.
    assert (B6 : Rabs ((v3 * th + v2) * th + a0) <= (3 + / 1000) * B).
    { apply (combo (3 * th - 2 * (th * th)) ((1 - th) * (1 - th)) (- (th * (1 - th))) 3); try (apply Rabs_le; nra); unfold v3, v2; ring. }
    assert (B6t : Rabs (((v3 * th + v2) * th + a0) * th) <= (1 + / 1000) * B).
    { apply (combo (th * th * (3 - 2 * th)) (th * ((1 - th) * (1 - th))) (- (th * th * (1 - th))) 1); try (apply Rabs_le; nra); [|unfold v3, v2; ring].
      assert (T2 : 0 <= th * th * (3 - 2 * th)) by nra.
      assert (T3 : 0 <= th * ((1 - th) * (1 - th))) by (apply Rmult_le_pos; [lra|apply Rle_0_sqr]).
      assert (T4 : 0 <= th * th * (1 - th)) by (apply Rmult_le_pos; [apply Rle_0_sqr|lra]).
      assert (0 <= x0 * (th * ((1 - th) * (1 - th))) <= 3 * (th * ((1 - th) * (1 - th)))) by (split; [apply Rmult_le_pos; lra|apply Rmult_le_compat_r; lra]).
      assert (0 <= x1 * (th * th * (1 - th)) <= 3 * (th * th * (1 - th))) by (split; [apply Rmult_le_pos; lra|apply Rmult_le_compat_r; lra]).
      assert (0 <= th * th * th) by (apply Rmult_le_pos; [apply Rle_0_sqr|lra]).
      assert (0 <= (1 - th) * (1 - th) * (1 - th)) by (apply Rmult_le_pos; [apply Rle_0_sqr|lra]).
      apply Rabs_le. split; nra. }
    assert (S1 : sc B h (61 / 10) 2 dzz (p' - a0)).
    { eapply (sc_le B h HB); [apply (sc_div B h HB Hh fh Hfh (202 / 100) 1 _ _ (2 + / 1000)); try lra; try lia|lra].
      eapply (sc_le B h HB); [apply (sc_sub B h HB Hh 0 0 1 _ _ _ _ (2 + / 1000)); try lra; try lia; assumption|lra]. }
    assert (S2 : sc B h (61 / 10) 2 dzx (a1 - p')).
    { eapply (sc_le B h HB); [apply (sc_div B h HB Hh fh Hfh (202 / 100) 1 _ _ (2 + / 1000)); try lra; try lia|lra].
      eapply (sc_le B h HB); [apply (sc_sub B h HB Hh 0 0 1 _ _ _ _ (2 + / 1000)); try lra; try lia; assumption|lra]. }
    assert (S3 : sc B h (2434 / 100) 3 c3 v3).
    { eapply (sc_le B h HB); [apply (sc_div B h HB Hh fh Hfh (1622 / 100) 2 _ _ (4 + / 1000)); try lra; try lia|lra].
      eapply (sc_le B h HB); [apply (sc_sub B h HB Hh (61 / 10) (61 / 10) 2 _ _ _ _ (4 + / 1000)); try lra; try lia; assumption|lra]. }
    assert (S4 : sc B h (2432 / 100) 2 c2 v2).
    { eapply (sc_le B h HB); [apply (sc_sub B h HB Hh (2 * (61 / 10)) (61 / 10) 2 _ _ _ _ (6 + / 1000)); try lra; try lia; try assumption|lra].
      apply double_exact; try lra; try assumption. pose proof (B_pos B HB). lra. }
    pose proof (zero_add _ _ _ _ S3) as S5.
    assert (S6 : sc B h (3245 / 100) 2 (mul (add (mul (lit 0 0) fs) c3) fs : f64) (v3 * th)).
    { eapply (sc_le B h HB); [apply (sc_mul B h HB Hh fs th Fs Hth Hfs (2434 / 100) 2 _ _ (4 + / 1000) (4 + / 1000)); try lra; try lia; assumption|lra]. }
    assert (S7 : sc B h (628 / 10) 2 (add (mul (add (mul (lit 0 0) fs) c3) fs) c2 : f64) (v3 * th + v2)).
    { eapply (sc_le B h HB); [apply (sc_add B h HB Hh (3245 / 100) (2432 / 100) 2 _ _ _ _ (6 + / 1000)); try lra; try lia; assumption|lra]. }
    assert (S8 : sc B h (749 / 10) 1 (mul (add (mul (add (mul (lit 0 0) fs) c3) fs) c2) fs : f64) ((v3 * th + v2) * th)).
    { eapply (sc_le B h HB); [apply (sc_mul B h HB Hh fs th Fs Hth Hfs (628 / 10) 1 _ _ (6 + / 1000) (6 + / 1000)); try lra; try lia; assumption|lra]. }
    assert (S9 : sc B h 78 1 (add (mul (add (mul (add (mul (lit 0 0) fs) c3) fs) c2) fs) fd0 : f64) ((v3 * th + v2) * th + a0)).
    { eapply (sc_le B h HB); [apply (sc_add B h HB Hh (749 / 10) 0 1 _ _ _ _ (3 + / 1000)); try lra; try lia; assumption|lra]. }
    assert (S10 : sc B h (821 / 10) 0 (mul (add (mul (add (mul (add (mul (lit 0 0) fs) c3) fs) c2) fs) fd0) fs : f64) (((v3 * th + v2) * th + a0) * th)).
    { eapply (sc_le B h HB); [apply (sc_mul B h HB Hh fs th Fs Hth Hfs 78 0 _ _ (3 + / 1000) (1 + / 1000)); try lra; try lia; assumption|lra]. }
    destruct S10 as [Fz Ez]. unfold piece_y. set (fz := mul (add (mul (add (mul (add (mul (lit 0 0) fs) c3) fs) c2) fs) fd0) fs : f64) in *. clearbody fz.
    replace (((v3 * th + v2) * th + a0) * th) with (herm p' a0 a1 th) in Ez by (unfold herm, v3, v2; ring).
    change (h ^ 0) with 1 in Ez. rewrite Rmult_1_r in Ez.
    set (H := herm p (x0 * p) (x1 * p) th) in *. pose proof herm_close as Hc. fold H in Hc.
    assert (Ez' : Rabs (fval fz - H) <= 1011 / 10 * (u64 * B)).
    { replace (fval fz - H) with ((fval fz - herm p' a0 a1 th) + (herm p' a0 a1 th - H)) by ring. eapply Rle_trans; [apply Rabs_triang|]. lra. }
    pose proof (uB_B B HB (1011 / 10) ltac:(lra)) as ub. pose proof (pow2_pos (-90)) as mp. pose proof (B_pos B HB) as bp.
    assert (Bs : Rabs (fval fz + fval fy) <= 1001 / 1000 * M).
    { replace (fval fz + fval fy) with ((fval fy + H) + (fval fz - H)) by ring. eapply Rle_trans; [apply Rabs_triang|]. lra. }
    destruct (sf_add_near fz fy Fz Fy) as [Fr Er].
    { eapply Rle_trans; [exact Bs|]. apply Rle_trans with (powerRZ 2 1 * powerRZ 2 90).
      - simpl powerRZ at 1. lra.
      - rewrite pow2_mul. unfold big64. apply pow2_le. lia. }
    change (sf_add fz fy) with (add fz fy : f64) in *. split; [exact Fr|].
    replace (fval (add fz fy : f64) - (fval fy + H)) with ((fval (add fz fy : f64) - (fval fz + fval fy)) + (fval fz - H)) by ring.
    eapply Rle_trans; [apply Rabs_triang|]. pose proof u64_pos as up.
    assert (u64 * Rabs (fval fz + fval fy) <= u64 * (1001 / 1000 * M)) by (apply Rmult_le_compat_l; lra).
    pose proof (tiny_eta 0 (-90) ltac:(lia)) as T. change (powerRZ 2 0) with 1 in T.
    assert (u64 * powerRZ 2 (-90) <= u64 * M) by (apply Rmult_le_compat_l; lra).
    assert (0 < u64 * M) by (apply Rmult_lt_0_compat; lra). pose proof (uB_pos B HB). lra.
  Qed.
End Piece.
