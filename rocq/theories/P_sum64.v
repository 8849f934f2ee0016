(** * Sums of nonnegative binary64 numbers in any order, and weighted means *)
From Coq Require Import ZArith Reals Bool Lia Lra Psatz SpecFloat List Permutation.
From Flocq Require Import Core BinarySingleNaN.
From Verif Require Import Num XR SF Res S_lib S_float P_float P_fl P_linear64 S_ntp64.
Import ListNotations.
Open Scope R_scope.

(** x is v up to the relative error k and the absolute error t *)
Definition around (x v k t : R) : Prop := v * (1 - k) - t <= x <= v * (1 + k) + t.

Lemma around_mono x v k t k' t' : 0 <= v -> around x v k t -> k <= k' -> t <= t' -> around x v k' t'.
Proof. intros Hv [H1 H2] Hk Ht. unfold around. split; nra. Qed.

Lemma around_trans x y v k t k' t' : 0 <= v -> 0 <= k <= 1 -> 0 <= t -> 0 <= k' <= 1 -> around x v k t -> around y x k' t' ->
  around y v (k + k' + k * k') (2 * t + t').
Proof.
  intros Hv Hk Ht Hk' [H1 H2] [H3 H4]. unfold around. split.
  - assert ((v * (1 - k) - t) * (1 - k') <= x * (1 - k')) by (apply Rmult_le_compat_r; lra). nra.
  - assert (x * (1 + k') <= (v * (1 + k) + t) * (1 + k')) by (apply Rmult_le_compat_r; lra). nra.
Qed.

Lemma around_sum {A} (f g : A -> R) k t l : (forall a, In a l -> around (f a) (g a) k t) ->
  around (Rsum (map f l)) (Rsum (map g l)) k (INR (length l) * t).
Proof.
  intros H. induction l as [|a l IH]; [unfold around; simpl; lra|].
  assert (Ha := H a (or_introl eq_refl)). assert (Hl := IH (fun x Hx => H x (or_intror Hx))).
  cbn [map length]. rewrite S_INR. unfold around, Rsum in *. cbn [fold_right] in *.
  set (F := fold_right Rplus 0 (map f l)) in *. set (G := fold_right Rplus 0 (map g l)) in *. nra.
Qed.

Lemma inv_upper k : 0 <= k <= / 1000 -> / (1 - k) <= 1 + 101 / 100 * k.
Proof.
  intros H. apply Rmult_le_reg_l with (1 - k); [lra|]. rewrite Rinv_r by lra. nra.
Qed.
Lemma inv_lower k : 0 <= k <= / 1000 -> 1 - k <= / (1 + k).
Proof.
  intros H. apply Rmult_le_reg_l with (1 + k); [lra|]. rewrite Rinv_r by lra. nra.
Qed.

Lemma around_div x N a A k1 k2 t : 0 <= N -> 0 < A -> 0 <= k1 <= / 1000 -> 0 <= k2 <= / 1000 -> 0 <= t -> around x N k1 t -> around a A k2 0 -> 0 <= x ->
  around (x / a) (N / A) (k1 + 102 / 100 * k2) (2 * t / A).
Proof.
  intros HN HA H1 H2 Ht [X1 X2] [A1 A2] HX. assert (Ap : 0 < a) by nra.
  assert (Q : 0 < / A) by (apply Rinv_0_lt_compat; exact HA).
  assert (I1 : / a <= / A * (1 + 101 / 100 * k2)).
  { apply Rle_trans with (/ (A * (1 - k2))).
    - apply Rinv_le_contravar; [nra|lra].
    - rewrite Rinv_mult. apply Rmult_le_compat_l; [lra|]. apply inv_upper. exact H2. }
  assert (I2 : / A * (1 - k2) <= / a).
  { apply Rle_trans with (/ (A * (1 + k2))).
    - rewrite Rinv_mult. apply Rmult_le_compat_l; [lra|]. apply inv_lower. exact H2.
    - apply Rinv_le_contravar; [exact Ap|lra]. }
  unfold around, Rdiv. set (q := / a) in *. set (Q' := / A) in *. clearbody q Q'.
  assert (NQ : 0 <= N * Q') by (apply Rmult_le_pos; lra). assert (TQ : 0 <= t * Q') by (apply Rmult_le_pos; lra).
  split.
  - apply Rle_trans with (x * (Q' * (1 - k2))); [|apply Rmult_le_compat_l; assumption].
    apply Rle_trans with ((N * (1 - k1) - t) * (Q' * (1 - k2))).
    + assert (0 <= N * Q' * (k1 * k2 + 2 / 100 * k2)) by (apply Rmult_le_pos; [exact NQ|nra]).
      assert (0 <= t * Q' * (1 + k2)) by (apply Rmult_le_pos; nra). nra.
    + apply Rmult_le_compat_r; [apply Rmult_le_pos; lra|exact X1].
  - apply Rle_trans with (x * (Q' * (1 + 101 / 100 * k2))); [apply Rmult_le_compat_l; assumption|].
    apply Rle_trans with ((N * (1 + k1) + t) * (Q' * (1 + 101 / 100 * k2))).
    + apply Rmult_le_compat_r; [apply Rmult_le_pos; lra|exact X2].
    + assert (0 <= N * Q' * (k2 / 100 - 101 / 100 * (k1 * k2))) by (apply Rmult_le_pos; [exact NQ|nra]).
      assert (0 <= t * Q' * (1 - 101 / 100 * k2)) by (apply Rmult_le_pos; nra). nra.
Qed.

Lemma sqrt_up x k : 0 <= x -> 0 <= k -> sqrt (x * (1 + k)) <= sqrt x * (1 + k).
Proof.
  intros Hx Hk. rewrite sqrt_mult by lra. apply Rmult_le_compat_l; [apply sqrt_pos|].
  rewrite <- (sqrt_square (1 + k)) at 2 by lra. apply sqrt_le_1_alt. nra.
Qed.
Lemma sqrt_down x k : 0 <= x -> 0 <= k <= 1 -> sqrt x * (1 - k) <= sqrt (x * (1 - k)).
Proof.
  intros Hx Hk. rewrite sqrt_mult by lra. apply Rmult_le_compat_l; [apply sqrt_pos|].
  rewrite <- (sqrt_square (1 - k)) at 1 by lra. apply sqrt_le_1_alt. nra.
Qed.
Lemma sqrt_plus_le a b : 0 <= a -> 0 <= b -> sqrt (a + b) <= sqrt a + sqrt b.
Proof.
  intros Ha Hb. assert (P := sqrt_pos a). assert (Q := sqrt_pos b).
  rewrite <- (sqrt_square (sqrt a + sqrt b)) by lra. apply sqrt_le_1_alt.
  assert (A := sqrt_sqrt a Ha). assert (B := sqrt_sqrt b Hb). nra.
Qed.
Lemma around_sqrt x v k t : 0 <= v -> 0 <= x -> 0 <= k <= 1 -> 0 <= t -> around x v k t -> around (sqrt x) (sqrt v) k (sqrt t).
Proof.
  intros Hv Hx Hk Ht [H1 H2]. split.
  - assert (sqrt v * (1 - k) <= sqrt x + sqrt t); [|lra].
    eapply Rle_trans; [apply sqrt_down; assumption|].
    eapply Rle_trans; [|apply sqrt_plus_le; assumption]. apply sqrt_le_1_alt. lra.
  - eapply Rle_trans; [apply sqrt_le_1_alt; exact H2|].
    eapply Rle_trans; [apply sqrt_plus_le; [apply Rmult_le_pos; lra|exact Ht]|].
    apply Rplus_le_compat_r. apply sqrt_up; lra.
Qed.

(** ** operations with nonnegative results *)
Definition rounds (x : f64) (p : R) : Prop := finite64 x /\ 0 <= fval x /\ around (fval x) p u64 eta64 /\ (p = 0 -> fval x = 0).
Lemma rnd_0 : rnd 0 = 0. Proof. apply round_0. apply valid_rnd_round_mode. Qed.
Lemma rounds_rnd (x : f64) p : 0 <= p -> finite64 x -> fval x = rnd p -> rounds x p.
Proof.
  intros Hp F E. split; [exact F|]. rewrite E. split; [rewrite <- rnd_0; apply rnd_mono; exact Hp|]. split.
  - assert (H := rnd_err p). rewrite (Rabs_pos_eq p Hp) in H. apply abs_le_of in H. unfold around. lra.
  - intros ->. apply rnd_0.
Qed.
Lemma fits p : 0 <= p <= big64 -> Rabs (rnd p) < bpow radix2 1024.
Proof. intros [H1 H2]. apply rnd_small. rewrite Rabs_pos_eq; assumption. Qed.
Lemma add_rounds (x y : f64) : finite64 x -> finite64 y -> 0 <= fval x -> 0 <= fval y -> fval x + fval y <= big64 -> rounds (add x y) (fval x + fval y).
Proof.
  intros Fx Fy Hx Hy H. assert (P : 0 <= fval x + fval y) by lra.
  destruct (add_val x y Fx Fy (fits _ (conj P H))) as [F E]. exact (rounds_rnd _ _ P F E).
Qed.
Lemma mul_rounds (x y : f64) : finite64 x -> finite64 y -> 0 <= fval x * fval y <= big64 -> rounds (mul x y) (fval x * fval y).
Proof.
  intros Fx Fy H. destruct (mul_val x y Fx Fy (fits _ H)) as [F E]. exact (rounds_rnd _ _ (proj1 H) F E).
Qed.
Lemma div_rounds (x y : f64) : finite64 x -> finite64 y -> fval y <> 0 -> 0 <= fval x / fval y <= big64 -> rounds (div x y) (fval x / fval y).
Proof.
  intros Fx Fy N H. destruct (div_val x y Fx Fy N (fits _ H)) as [F E]. exact (rounds_rnd _ _ (proj1 H) F E).
Qed.

(** ** sums *)
Lemma Rsum_app a b : Rsum (a ++ b) = Rsum a + Rsum b.
Proof. induction a as [|x a IH]; simpl; [lra|]. unfold Rsum in *. simpl. rewrite IH. lra. Qed.
Lemma Rsum_perm a b : Permutation a b -> Rsum a = Rsum b.
Proof. induction 1; simpl in *; unfold Rsum in *; simpl in *; lra. Qed.
Lemma Rsum_pos_map {A} (f : A -> R) l : (forall a, In a l -> 0 <= f a) -> 0 <= Rsum (map f l).
Proof.
  intros H. induction l as [|a l IH]; [simpl; lra|]. cbn [map]. unfold Rsum. cbn [fold_right]. fold (Rsum (map f l)).
  assert (0 <= f a) by (apply H; left; reflexivity). assert (0 <= Rsum (map f l)) by (apply IH; intros; apply H; right; assumption). lra.
Qed.

Definition nonneg64 (x : f64) : Prop := finite64 x /\ 0 <= fval x.

Lemma summed_gen l x : summed l x -> Forall nonneg64 l -> INR (length l) <= powerRZ 2 40 -> Rsum (map fval l) <= powerRZ 2 900 ->
  finite64 x /\ 0 <= fval x /\ (length l = 0%nat \/ 1 <= INR (length l)
    /\ around (fval x) (Rsum (map fval l)) (2 * INR (length l) * u64) (2 * (INR (length l) - 1) * eta64))
  /\ (Rsum (map fval l) = 0 -> fval x = 0).
Proof.
  pose proof eta64_pos as E0. assert (U : u64 = / 9007199254740992) by reflexivity.
  assert (E40 : powerRZ 2 40 = 1099511627776) by (simpl; lra).
  assert (Eb : powerRZ 2 900 * 4 <= big64).
  { apply Rle_trans with (powerRZ 2 900 * powerRZ 2 2); [simpl (powerRZ 2 2); pose proof (pow2_pos 900); lra|]. rewrite pow2_mul. apply pow2_le. lia. }
  assert (P9 : 1 <= powerRZ 2 900) by (change 1 with (powerRZ 2 0); apply pow2_le; lia).
  assert (Ee : powerRZ 2 41 * eta64 <= 1).
  { unfold eta64. rewrite pow2_mul. change 1 with (powerRZ 2 0). apply pow2_le. lia. }
  assert (E41 : powerRZ 2 41 = 2199023255552) by (simpl; lra). rewrite E41 in Ee.
  intros S. induction S as [|x|l l1 l2 x y HP S1 IH1 S2 IH2]; intros HF HN HB.
  - split; [exact I|]. split; [simpl; lra|]. split; [left; reflexivity|reflexivity].
  - inversion HF as [|? ? [Fx Hx] _]; subst. split; [exact Fx|]. split; [exact Hx|].
    cbn [map length]. unfold Rsum. cbn [fold_right]. rewrite Rplus_0_r. split; [|intros H; exact H].
    right. change (INR 1) with 1. split; [lra|].
    unfold around. rewrite U. split; nra.
  - assert (HL : length l = (length l1 + length l2)%nat) by (rewrite (Permutation_length HP), app_length; reflexivity).
    assert (HS : Rsum (map fval l) = Rsum (map fval l1) + Rsum (map fval l2)).
    { rewrite (Rsum_perm _ _ (Permutation_map fval HP)), map_app. apply Rsum_app. }
    assert (HF' : Forall nonneg64 (l1 ++ l2)) by (eapply Permutation_Forall; eassumption).
    apply Forall_app in HF'. destruct HF' as [HF1 HF2].
    assert (Z1 : 0 <= Rsum (map fval l1)) by (apply Rsum_pos_map; rewrite Forall_forall in HF1; intros a Ha; apply HF1; exact Ha).
    assert (Z2 : 0 <= Rsum (map fval l2)) by (apply Rsum_pos_map; rewrite Forall_forall in HF2; intros a Ha; apply HF2; exact Ha).
    rewrite HL, plus_INR in *. rewrite HS in *. pose proof (pos_INR (length l1)) as N1. pose proof (pos_INR (length l2)) as N2.
    destruct (IH1 HF1 ltac:(lra) ltac:(lra)) as (F1 & V1 & A1 & O1). destruct (IH2 HF2 ltac:(lra) ltac:(lra)) as (F2 & V2 & A2 & O2).
    assert (K1 : length l1 = 0%nat -> Rsum (map fval l1) = 0) by (intros H; destruct l1; [reflexivity|discriminate]).
    assert (K2 : length l2 = 0%nat -> Rsum (map fval l2) = 0) by (intros H; destruct l2; [reflexivity|discriminate]).
    set (n1 := length l1) in *. set (n2 := length l2) in *. clearbody n1 n2.
    set (s1 := Rsum (map fval l1)) in *. set (s2 := Rsum (map fval l2)) in *. clearbody s1 s2. clear HP S1 S2 IH1 IH2 HF HF1 HF2 HS HL.
    set (r1 := INR n1) in *. set (r2 := INR n2) in *.
    assert (U0 : 0 < u64) by (rewrite U; lra).
    assert (Q1 : fval x <= s1 * 2 + 1).
    { destruct A1 as [A1|[M1 [_ A1]]]; [rewrite (O1 (K1 A1)); lra|].
      assert (2 * r1 * u64 <= 1) by (rewrite U; lra). assert (2 * (r1 - 1) * eta64 <= 1) by nra. nra. }
    assert (Q2 : fval y <= s2 * 2 + 1).
    { destruct A2 as [A2|[M2 [_ A2]]]; [rewrite (O2 (K2 A2)); lra|].
      assert (2 * r2 * u64 <= 1) by (rewrite U; lra). assert (2 * (r2 - 1) * eta64 <= 1) by nra. nra. }
    assert (HB' : fval x + fval y <= big64) by lra.
    destruct (add_rounds x y F1 F2 V1 V2 HB') as (F & V & A & O).
    split; [exact F|]. split; [exact V|]. split.
    + destruct A1 as [M1|[M1 A1]]; [|destruct A2 as [M2|[M2 A2]]].
      * assert (X0 := O1 (K1 M1)). assert (s1 = 0) by auto. assert (R1 : r1 = 0) by (unfold r1; rewrite M1; reflexivity).
        assert (E : fval (add x y) = fval y).
        { destruct (add_val x y F1 F2) as [_ E]; [apply fits; lra|]. change (sf_add x y) with (add x y) in E. rewrite E, X0, Rplus_0_l. apply rnd_fval. exact F2. }
        rewrite E, R1, M1. subst s1. rewrite !Rplus_0_l. exact A2.
      * assert (Y0 := O2 (K2 M2)). assert (s2 = 0) by auto. assert (R2 : r2 = 0) by (unfold r2; rewrite M2; reflexivity).
        assert (E : fval (add x y) = fval x).
        { destruct (add_val x y F1 F2) as [_ E]; [apply fits; lra|]. change (sf_add x y) with (add x y) in E. rewrite E, Y0, Rplus_0_r. apply rnd_fval. exact F1. }
        rewrite E, R2, M2. subst s2. rewrite !Rplus_0_r, Nat.add_0_r. right. exact (conj M1 A1).
      * right. split; [lra|]. unfold around in *. set (z := fval (add x y)) in *. clearbody z r1 r2. set (a := fval x) in *. set (b := fval y) in *. clearbody a b.
        clear Eb P9 HB HB' O O1 O2 K1 K2 F1 F2 F. destruct A1 as [A1 A1']. destruct A2 as [A2 A2']. destruct A as [A A'].
        assert (T : 2 * (r1 + r2) * u64 <= / 2) by (rewrite U; lra).
        assert (D1 : 2 * r1 * u64 * s1 <= s1 / 2) by nra. assert (D2 : 2 * r2 * u64 * s2 <= s2 / 2) by nra.
        assert (AB : a + b <= 3 / 2 * (s1 + s2) + 2 * (r1 + r2) * eta64) by nra.
        assert (UE : u64 * (2 * (r1 + r2) * eta64) <= eta64 / 2) by nra.
        assert (S1 : u64 * s1 <= u64 * s1 * r2) by (rewrite <- (Rmult_1_r (u64 * s1)) at 1; apply Rmult_le_compat_l; nra).
        assert (S2 : u64 * s2 <= u64 * s2 * r1) by (rewrite <- (Rmult_1_r (u64 * s2)) at 1; apply Rmult_le_compat_l; nra).
        assert (UA : u64 * (a + b) <= u64 * (3 / 2 * (s1 + s2) + 2 * (r1 + r2) * eta64)) by (apply Rmult_le_compat_l; lra).
        assert (UZ : 0 <= u64 * (s1 + s2)) by (apply Rmult_le_pos; lra).
        clear T D1 D2 AB U E40 E41 Ee HN Q1 Q2.
        ring_simplify in A. ring_simplify in A'. ring_simplify in A1. ring_simplify in A1'. ring_simplify in A2. ring_simplify in A2'.
        ring_simplify in UA. ring_simplify in UE. ring_simplify in S1. ring_simplify in S2. ring_simplify in UZ.
        split; ring_simplify; lra.
    + intros H. apply O. rewrite O1, O2 by lra. lra.
Qed.

Lemma summed_ok l x : summed l x -> Forall nonneg64 l -> INR (length l) <= powerRZ 2 40 -> Rsum (map fval l) <= powerRZ 2 900 ->
  finite64 x /\ 0 <= fval x /\ around (fval x) (Rsum (map fval l)) (2 * INR (length l) * u64) (2 * INR (length l) * eta64)
  /\ (Rsum (map fval l) = 0 -> fval x = 0).
Proof.
  intros S HF HN HB. destruct (summed_gen l x S HF HN HB) as (F & V & A & O). split; [exact F|]. split; [exact V|]. split; [|exact O].
  destruct A as [A|[A [A1 A2]]].
  - assert (E : Rsum (map fval l) = 0) by (destruct l; [reflexivity|discriminate]). rewrite (O E), E, A. unfold around. simpl. lra.
  - pose proof eta64_pos. unfold around. split; lra.
Qed.

Lemma fsum_summed (l : list f64) : summed l (fsum l).
Proof.
  unfold fsum. assert (H : forall (l l0 : list f64) a, summed l0 a -> summed (l0 ++ l) (fold_left add l a)).
  { clear l. intros l. induction l as [|x l IH]; intros l0 a S; [rewrite app_nil_r; exact S|].
    cbn [fold_left]. change (x :: l) with ([x] ++ l). rewrite app_assoc. apply IH.
    apply (sum_two _ l0 [x]); [apply Permutation_refl|exact S|apply sum_one]. }
  exact (H l [] _ sum_none).
Qed.
