(** * Norms of neutrality errors computed in binary64 *)
From Coq Require Import ZArith Reals Bool Lia Lra Psatz SpecFloat List Permutation.
From Flocq Require Import Core.
From Verif Require Import Num XR SF Res Arr ArrLemmas M_lib M_ntp S_lib S_float P_float P_fl P_linear64 S_ntp S_ntp64 P_div P_ntp P_sum64.
Import ListNotations.
Open Scope R_scope.

Lemma around_sqrt' x v k t : 0 <= v -> 0 <= x -> 0 <= k <= / 100 -> 0 <= t -> around x v k t -> around (sqrt x) (sqrt v) (51 / 100 * k) (sqrt t).
Proof.
  intros Hv Hx Hk Ht [H1 H2]. pose proof (sqrt_pos v) as V.
  assert (U : sqrt (v * (1 + k)) <= sqrt v * (1 + 51 / 100 * k)).
  { rewrite sqrt_mult by lra. apply Rmult_le_compat_l; [exact V|].
    rewrite <- (sqrt_square (1 + 51 / 100 * k)) by lra. apply sqrt_le_1_alt. nra. }
  assert (L : sqrt v * (1 - 51 / 100 * k) <= sqrt (v * (1 - k))).
  { rewrite sqrt_mult by lra. apply Rmult_le_compat_l; [exact V|].
    rewrite <- (sqrt_square (1 - 51 / 100 * k)) by lra. apply sqrt_le_1_alt. nra. }
  split.
  - assert (sqrt v * (1 - 51 / 100 * k) <= sqrt x + sqrt t); [|lra].
    eapply Rle_trans; [exact L|].
    eapply Rle_trans; [|apply sqrt_plus_le; assumption]. apply sqrt_le_1_alt. lra.
  - eapply Rle_trans; [apply sqrt_le_1_alt; exact H2|].
    eapply Rle_trans; [apply sqrt_plus_le; [apply Rmult_le_pos; lra|exact Ht]|]. lra.
Qed.

(** ** Minkowski's inequality for weighted sums *)
Section Minkowski.
  Context {A : Type} (p x y : A -> R) (b : R).
  Lemma sum_cons (f : A -> R) a l : Rsum (map f (a :: l)) = f a + Rsum (map f l). Proof. reflexivity. Qed.
  Lemma sum_le (f g : A -> R) l : (forall a, In a l -> f a <= g a) -> Rsum (map f l) <= Rsum (map g l).
  Proof.
    induction l as [|a l IH]; intros H; [simpl; lra|]. rewrite !sum_cons. assert (f a <= g a) by (apply H; left; reflexivity).
    assert (Rsum (map f l) <= Rsum (map g l)) by (apply IH; intros; apply H; right; assumption). lra.
  Qed.
  Lemma sum_ext (f g : A -> R) l : (forall a, In a l -> f a = g a) -> Rsum (map f l) = Rsum (map g l).
  Proof. intros H. f_equal. apply map_ext_in. exact H. Qed.
  Lemma sum_quadratic l c : (forall a, In a l -> 0 <= p a) ->
    0 <= Rsum (map (fun a => p a * (x a * x a)) l) - 2 * c * Rsum (map (fun a => p a * Rabs (x a)) l) + c * c * Rsum (map p l).
  Proof.
    intros H. induction l as [|a l IH]; [simpl; lra|]. rewrite !sum_cons.
    assert (Ha : 0 <= p a) by (apply H; left; reflexivity). assert (IH' := IH (fun a Ha => H a (or_intror Ha))).
    replace (x a * x a) with (Rabs (x a) * Rabs (x a)) by (rewrite <- Rabs_mult; apply Rabs_right; apply Rle_ge, Rle_0_sqr).
    assert (0 <= p a * ((Rabs (x a) - c) * (Rabs (x a) - c))) by (apply Rmult_le_pos; [assumption|apply Rle_0_sqr]).
    nra.
  Qed.
  Lemma cauchy l : (forall a, In a l -> 0 <= p a) ->
    Rsum (map (fun a => p a * Rabs (x a)) l) <= sqrt (Rsum (map (fun a => p a * (x a * x a)) l)) * sqrt (Rsum (map p l)).
  Proof.
    intros H. assert (Q := fun c => sum_quadratic l c H).
    assert (M0 : 0 <= Rsum (map (fun a => p a * Rabs (x a)) l)).
    { apply Rsum_pos_map. intros a Ha. apply Rmult_le_pos; [apply H; exact Ha|apply Rabs_pos]. }
    assert (X0 : 0 <= Rsum (map (fun a => p a * (x a * x a)) l)).
    { apply Rsum_pos_map. intros a Ha. apply Rmult_le_pos; [apply H; exact Ha|apply Rle_0_sqr]. }
    assert (P0 : 0 <= Rsum (map p l)) by (apply Rsum_pos_map; exact H).
    set (X := Rsum (map (fun a => p a * (x a * x a)) l)) in *. set (M := Rsum (map (fun a => p a * Rabs (x a)) l)) in *. set (P := Rsum (map p l)) in *. clearbody X M P.
    rewrite <- sqrt_mult by assumption. rewrite <- (sqrt_square M) by assumption. apply sqrt_le_1_alt.
    destruct (Req_dec P 0) as [->|NP].
    - destruct (Req_dec M 0) as [->|NM]; [lra|]. exfalso. specialize (Q ((X + 1) / (2 * M))).
      replace (X - 2 * ((X + 1) / (2 * M)) * M + (X + 1) / (2 * M) * ((X + 1) / (2 * M)) * 0) with (-1) in Q by (field; exact NM). lra.
    - specialize (Q (M / P)). replace (X - 2 * (M / P) * M + M / P * (M / P) * P) with ((X * P - M * M) / P) in Q by (field; exact NP).
      assert (0 < P) by lra. assert (0 <= (X * P - M * M) / P * P) by (apply Rmult_le_pos; lra).
      replace ((X * P - M * M) / P * P) with (X * P - M * M) in H1 by (field; exact NP). lra.
  Qed.
End Minkowski.
Lemma minkowski {A} (p x y : A -> R) b l : (forall a, In a l -> 0 <= p a) -> 0 <= b -> (forall a, In a l -> Rabs (y a - x a) <= b) ->
  sqrt (Rsum (map (fun a => p a * (y a * y a)) l)) <= sqrt (Rsum (map (fun a => p a * (x a * x a)) l)) + b * sqrt (Rsum (map p l)).
Proof.
  intros Hp Hb Hxy. assert (C := cauchy p x l Hp).
  assert (X0 : 0 <= Rsum (map (fun a => p a * (x a * x a)) l)).
  { apply Rsum_pos_map. intros a Ha. apply Rmult_le_pos; [apply Hp; exact Ha|apply Rle_0_sqr]. }
  assert (P0 : 0 <= Rsum (map p l)) by (apply Rsum_pos_map; exact Hp).
  assert (E : Rsum (map (fun a => p a * (y a * y a)) l) <= Rsum (map (fun a => p a * (x a * x a)) l) + 2 * b * Rsum (map (fun a => p a * Rabs (x a)) l) + b * b * Rsum (map p l)).
  { clear C X0 P0. induction l as [|a l IH]; [simpl; lra|]. rewrite !sum_cons.
    assert (IH' := IH (fun a Ha => Hp a (or_intror Ha)) (fun a Ha => Hxy a (or_intror Ha))).
    assert (Ha : 0 <= p a) by (apply Hp; left; reflexivity). assert (Hy := Hxy a (or_introl eq_refl)).
    assert (T : Rabs (y a) <= Rabs (x a) + b).
    { replace (y a) with (x a + (y a - x a)) by ring. eapply Rle_trans; [apply Rabs_triang|]. lra. }
    assert (S : y a * y a <= (Rabs (x a) + b) * (Rabs (x a) + b)).
    { replace (y a * y a) with (Rabs (y a) * Rabs (y a)) by (rewrite <- Rabs_mult; apply Rabs_right; apply Rle_ge, Rle_0_sqr).
      pose proof (Rabs_pos (y a)). apply Rmult_le_compat; assumption. }
    assert (S' : p a * (y a * y a) <= p a * ((Rabs (x a) + b) * (Rabs (x a) + b))) by (apply Rmult_le_compat_l; assumption).
    replace (x a * x a) with (Rabs (x a) * Rabs (x a)) by (rewrite <- Rabs_mult; apply Rabs_right; apply Rle_ge, Rle_0_sqr).
    lra. }
  set (Y := Rsum (map (fun a => p a * (y a * y a)) l)) in *. set (X := Rsum (map (fun a => p a * (x a * x a)) l)) in *.
  set (M := Rsum (map (fun a => p a * Rabs (x a)) l)) in *. set (P := Rsum (map p l)) in *. clearbody X M P Y.
  pose proof (sqrt_pos X). pose proof (sqrt_pos P). pose proof (sqrt_sqrt X X0). pose proof (sqrt_sqrt P P0).
  assert (Z : 0 <= sqrt X + b * sqrt P) by (assert (0 <= b * sqrt P) by (apply Rmult_le_pos; assumption); lra).
  rewrite <- (sqrt_square (sqrt X + b * sqrt P)) by exact Z. apply sqrt_le_1_alt.
  assert (b * M <= b * (sqrt X * sqrt P)) by (apply Rmult_le_compat_l; assumption). nra.
Qed.

(** ** one term *)
Lemma u64_eq : u64 = / 9007199254740992. Proof. reflexivity. Qed.
Lemma u64_pow : u64 = powerRZ 2 (-53).
Proof. rewrite u64_eq. simpl. lra. Qed.
Lemma u64_pos : 0 < u64. Proof. rewrite u64_eq. lra. Qed.
Lemma pow_double n : 2 * powerRZ 2 n = powerRZ 2 (n + 1).
Proof. rewrite Z.add_comm, <- pow2_mul. simpl (powerRZ 2 1). lra. Qed.
Lemma pow2_inv n : powerRZ 2 (- n) = / powerRZ 2 n.
Proof. apply powerRZ_neg'. Qed.

Definition tidy (x : f64) : f64 := if isnan x then zero else x.
Lemma isnan_fin (x : f64) : finite64 x -> isnan x = false.
Proof. destruct x; intros H; [reflexivity|elim H|elim H|reflexivity]. Qed.
Lemma tidy_fin (x : f64) : finite64 x -> tidy x = x.
Proof. intros H. unfold tidy. rewrite (isnan_fin x H). reflexivity. Qed.
Lemma mul_nan_r (x : f64) : mul x (S754_nan : f64) = S754_nan. Proof. destruct x; reflexivity. Qed.
Lemma nan_is : (nan : f64) = S754_nan. Proof. reflexivity. Qed.
Lemma tidy_nan : tidy S754_nan = zero. Proof. reflexivity. Qed.

(** a relative error when the exact value is not tiny *)
Lemma rounds_rel (x : f64) p : p = 0 \/ powerRZ 2 (-900) <= p -> rounds x p -> around (fval x) p (2 * u64) 0.
Proof.
  intros H (_ & _ & A & Z). destruct H as [->|H].
  - rewrite (Z eq_refl). unfold around. lra.
  - assert (E : eta64 <= u64 * p).
    { apply Rle_trans with (u64 * powerRZ 2 (-900)); [|apply Rmult_le_compat_l; [pose proof u64_pos; lra|exact H]].
      rewrite u64_pow, pow2_mul. apply pow2_le. lia. }
    unfold around in *. lra.
Qed.

Definition weight (r : R) : Prop := r = 0 \/ moderate r.

Lemma area_term (d w : f64) : finite64 d -> moderate (fval d) -> finite64 w -> weight (fval w) ->
  nonneg64 (mul d w) /\ around (fval (mul d w)) (fval d * fval w) (2 * u64) 0
  /\ (fval d * fval w = 0 \/ powerRZ 2 (-200) <= fval d * fval w) /\ 0 <= fval d * fval w <= powerRZ 2 200.
Proof.
  intros Fd [D1 D2] Fw Hw. pose proof (pow2_pos (-100)) as P1. pose proof (pow2_pos 100) as P2.
  assert (B : (fval d * fval w = 0 \/ powerRZ 2 (-200) <= fval d * fval w) /\ 0 <= fval d * fval w <= powerRZ 2 200).
  { destruct Hw as [Hw|[W1 W2]].
    - rewrite Hw. split; [left; lra|]. pose proof (pow2_pos 200). lra.
    - replace (-200)%Z with (-100 + -100)%Z by reflexivity. replace 200%Z with (100 + 100)%Z by reflexivity. rewrite <- !pow2_mul.
      assert (powerRZ 2 (-100) * powerRZ 2 (-100) <= fval d * fval w) by (apply Rmult_le_compat; lra).
      assert (0 < powerRZ 2 (-100) * powerRZ 2 (-100)) by (apply Rmult_lt_0_compat; lra).
      split; [right; assumption|]. split; [lra|]. apply Rmult_le_compat; lra. }
  destruct B as [B1 [B2 B3]].
  assert (R := mul_rounds d w Fd Fw (conj B2 (Rle_trans _ _ _ B3 (pow2_le 200 1000 ltac:(lia))))).
  split; [split; apply R|]. split; [|split; [exact B1|split; assumption]].
  apply rounds_rel; [|exact R]. destruct B1 as [B1|B1]; [left; exact B1|right]. eapply Rle_trans; [|exact B1]. apply pow2_le. lia.
Qed.

Lemma ratio_term (d w : f64) : finite64 d -> moderate (fval d) -> finite64 w -> weight (fval w) ->
  nonneg64 (div w d) /\ around (fval (div w d)) (fval w / fval d) (2 * u64) 0 /\ 0 <= fval w / fval d <= powerRZ 2 200.
Proof.
  intros Fd [D1 D2] Fw Hw. pose proof (pow2_pos (-100)) as P1. pose proof (pow2_pos 100) as P2.
  assert (I1 : powerRZ 2 (-100) <= / fval d).
  { change (-100)%Z with (- (100))%Z; rewrite pow2_inv. apply Rinv_le_contravar; lra. }
  assert (I2 : / fval d <= powerRZ 2 100).
  { replace (powerRZ 2 100) with (/ powerRZ 2 (-100)); [apply Rinv_le_contravar; lra|]. change (-100)%Z with (- (100))%Z; rewrite pow2_inv. apply Rinv_inv. }
  assert (B : (fval w / fval d = 0 \/ powerRZ 2 (-200) <= fval w / fval d) /\ 0 <= fval w / fval d <= powerRZ 2 200).
  { unfold Rdiv. destruct Hw as [Hw|[W1 W2]].
    - rewrite Hw. split; [left; lra|]. pose proof (pow2_pos 200). lra.
    - replace (-200)%Z with (-100 + -100)%Z by reflexivity. replace 200%Z with (100 + 100)%Z by reflexivity. rewrite <- !pow2_mul.
      assert (powerRZ 2 (-100) * powerRZ 2 (-100) <= fval w * / fval d) by (apply Rmult_le_compat; lra).
      assert (0 < powerRZ 2 (-100) * powerRZ 2 (-100)) by (apply Rmult_lt_0_compat; lra).
      split; [right; assumption|]. split; [lra|]. apply Rmult_le_compat; lra. }
  destruct B as [B1 [B2 B3]].
  assert (R := div_rounds w d Fw Fd ltac:(lra) (conj B2 (Rle_trans _ _ _ B3 (pow2_le 200 1000 ltac:(lia))))).
  split; [split; apply R|]. split; [|split; assumption].
  apply rounds_rel; [|exact R]. destruct B1 as [B1|B1]; [left; exact B1|right]. eapply Rle_trans; [|exact B1]. apply pow2_le. lia.
Qed.

Lemma square_term (d w y : f64) : finite64 d -> moderate (fval d) -> finite64 w -> weight (fval w) -> finite64 y -> Rabs (fval y) <= 1001 ->
  nonneg64 (mul (div w d) (mul y y)) /\ around (fval (mul (div w d) (mul y y))) (fval w / fval d * (fval y * fval y)) (5 * u64) (powerRZ 2 (-850)).
Proof.
  intros Fd Hd Fw Hw Fy Hy. destruct (ratio_term d w Fd Hd Fw Hw) as ((Fp & Vp) & Ap & Bp).
  assert (Y : 0 <= fval y * fval y <= 1002001).
  { split; [apply Rle_0_sqr|]. replace (fval y * fval y) with (Rabs (fval y) * Rabs (fval y)) by (rewrite <- Rabs_mult; apply Rabs_right; apply Rle_ge, Rle_0_sqr).
    replace 1002001 with (1001 * 1001) by lra. pose proof (Rabs_pos (fval y)). apply Rmult_le_compat; assumption. }
  assert (B20 : 1002001 * 2 <= powerRZ 2 21) by (simpl; lra).
  assert (Rq := mul_rounds y y Fy Fy (conj (proj1 Y) (Rle_trans _ _ _ (proj2 Y) (Rle_trans _ _ _ (Rle_trans 1002001 (1002001 * 2) _ ltac:(lra) B20) (pow2_le 21 1000 ltac:(lia)))))).
  destruct Rq as (Fq & Vq & Aq & _).
  set (P := fval w / fval d) in *. set (p := div w d) in *. set (q := mul y y) in *. set (Q := fval y * fval y) in *.
  pose proof u64_pos as U0. pose proof eta64_pos as E0. pose proof u64_eq as U.
  assert (E1 : eta64 <= 1) by (unfold eta64; change 1 with (powerRZ 2 0); apply pow2_le; lia).
  assert (q2 : fval q <= powerRZ 2 21). { destruct Aq as [_ Aq]. assert (Q * (1 + u64) <= 1002001 * (1 + u64)) by (apply Rmult_le_compat_r; lra). rewrite U in *. lra. }
  assert (p2 : fval p <= powerRZ 2 201). { destruct Ap as [_ Ap]. change 201%Z with (200 + 1)%Z; rewrite <- pow_double. assert (P * (1 + 2 * u64) <= P * 2) by (apply Rmult_le_compat_l; rewrite ?U; lra). lra. }
  assert (pq : 0 <= fval p * fval q <= powerRZ 2 222).
  { split; [apply Rmult_le_pos; assumption|]. replace 222%Z with (201 + 21)%Z by reflexivity. rewrite <- pow2_mul. apply Rmult_le_compat; assumption. }
  assert (R := mul_rounds p q Fp Fq (conj (proj1 pq) (Rle_trans _ _ _ (proj2 pq) (pow2_le 222 1000 ltac:(lia))))).
  destruct R as (F & V & A & _). split; [split; assumption|].
  assert (PE : 0 <= P * eta64 <= powerRZ 2 (-875)).
  { split; [apply Rmult_le_pos; lra|]. replace (-875)%Z with (200 + -1075)%Z by reflexivity. rewrite <- pow2_mul. apply Rmult_le_compat; try lra. apply Rle_refl. }
  assert (PQ : 0 <= P * Q) by (apply Rmult_le_pos; lra).
  assert (B1 : around (fval p * fval q) (P * Q) (31 / 10 * u64) (powerRZ 2 (-874))).
  { destruct Ap as [Ap1 Ap2]. destruct Aq as [Aq1 Aq2]. change (-874)%Z with (-875 + 1)%Z; rewrite <- pow_double.
    set (e := powerRZ 2 (-875)) in *. clearbody e. set (pp := fval p) in *. set (qq := fval q) in *. clearbody pp qq. clear A F V Fp Fq pq q2 p2.
    assert (T1 : pp * (Q * (1 - u64) - eta64) <= pp * qq) by (apply Rmult_le_compat_l; lra).
    assert (T2 : pp * qq <= pp * (Q * (1 + u64) + eta64)) by (apply Rmult_le_compat_l; lra).
    assert (T3 : P * (1 - 2 * u64) * (Q * (1 - u64)) <= pp * (Q * (1 - u64))) by (apply Rmult_le_compat_r; [apply Rmult_le_pos; rewrite ?U; lra|lra]).
    assert (T4 : pp * (Q * (1 + u64) + eta64) <= P * (1 + 2 * u64) * (Q * (1 + u64) + eta64)) by (apply Rmult_le_compat_r; [|lra]; assert (0 <= Q * (1 + u64)) by (apply Rmult_le_pos; lra); lra).
    assert (T5 : pp * eta64 <= P * (1 + 2 * u64) * eta64) by (apply Rmult_le_compat_r; lra).
    assert (T6 : 0 <= P * Q * (u64 * u64) <= P * Q * (u64 / 100)).
    { split; [apply Rmult_le_pos; [exact PQ|nra]|]. apply Rmult_le_compat_l; [exact PQ|]. rewrite U. lra. }
    assert (T7 : 0 <= P * eta64 * u64 <= P * eta64 / 100) by (rewrite U; lra).
    assert (T8 : 0 <= P * Q * u64) by (apply Rmult_le_pos; lra).
    unfold around. split; lra. }
  assert (C := around_trans _ _ _ _ _ _ _ PQ (conj (ltac:(lra) : 0 <= 31 / 10 * u64) (ltac:(rewrite U; lra) : 31 / 10 * u64 <= 1)) (Rlt_le _ _ (pow2_pos (-874)))
    (conj (Rlt_le _ _ U0) (ltac:(rewrite U; lra) : u64 <= 1)) B1 A).
  eapply around_mono; [exact PQ|exact C| |].
  - rewrite U. lra.
  - unfold eta64. rewrite pow_double. assert (powerRZ 2 (-1075) <= powerRZ 2 (-873)) by (apply pow2_le; lia). 
    assert (powerRZ 2 (-873 + 1) <= powerRZ 2 (-850)) by (apply pow2_le; lia). rewrite <- pow_double in H0. simpl Z.add. lra.
Qed.

Lemma abs_term (w y : f64) : finite64 w -> weight (fval w) -> finite64 y -> Rabs (fval y) <= 1001 ->
  nonneg64 (mul w (fabs y)) /\ around (fval (mul w (fabs y))) (fval w * Rabs (fval y)) u64 (powerRZ 2 (-850)).
Proof.
  intros Fw Hw Fy Hy. destruct (SFabs_exact y Fy) as [Fa Ea]. change (SFabs y) with (fabs y) in *.
  assert (W : 0 <= fval w <= powerRZ 2 100).
  { pose proof (pow2_pos 100). pose proof (pow2_pos (-100)). destruct Hw as [->|[W1 W2]]; lra. }
  pose proof (Rabs_pos (fval y)) as Y0.
  assert (P : 0 <= fval w * Rabs (fval y)) by (apply Rmult_le_pos; lra).
  assert (P2 : fval w * Rabs (fval y) <= big64).
  { apply Rle_trans with (powerRZ 2 100 * powerRZ 2 10); [apply Rmult_le_compat; try lra; simpl; lra|]. rewrite pow2_mul. apply pow2_le. lia. }
  rewrite <- Ea in *. destruct (mul_rounds w (fabs y) Fw Fa (conj P P2)) as (F & V & A & _).
  split; [split; assumption|]. eapply around_mono; [exact P|exact A|lra|]. apply pow2_le. lia.
Qed.

(** ** sums of terms *)
Lemma sum_terms {A} (L : list A) (t : A -> f64) (g : A -> R) k X : summed (map t L) X ->
  (forall a, In a L -> nonneg64 (t a) /\ 0 <= g a /\ around (fval (t a)) (g a) k (powerRZ 2 (-850))) ->
  INR (length L) <= powerRZ 2 40 -> Rsum (map g L) <= powerRZ 2 800 -> 0 <= k <= 5 * u64 ->
  finite64 X /\ 0 <= fval X /\ 0 <= Rsum (map g L) /\ around (fval X) (Rsum (map g L)) (k + (2 * INR (length L) + 1) * u64) (powerRZ 2 (-800)).
Proof.
  intros S H HN HB Hk. pose proof u64_pos as U0. pose proof eta64_pos as E0. pose proof u64_eq as U.
  assert (G0 : 0 <= Rsum (map g L)) by (apply Rsum_pos_map; intros a Ha; apply H; exact Ha).
  assert (A1 : around (Rsum (map fval (map t L))) (Rsum (map g L)) k (INR (length L) * powerRZ 2 (-850))).
  { rewrite map_map. apply around_sum. intros a Ha. apply H. exact Ha. }
  pose proof (pos_INR (length L)) as N0.
  assert (T1 : INR (length L) * powerRZ 2 (-850) <= powerRZ 2 (-810)).
  { replace (-810)%Z with (40 + -850)%Z by reflexivity. rewrite <- pow2_mul. apply Rmult_le_compat_r; [left; apply pow2_pos|exact HN]. }
  assert (T2 : INR (length L) * eta64 <= powerRZ 2 (-810)).
  { apply Rle_trans with (powerRZ 2 40 * eta64); [apply Rmult_le_compat_r; lra|]. unfold eta64. rewrite pow2_mul. apply pow2_le. lia. }
  assert (P1 : powerRZ 2 (-810) * 4 <= powerRZ 2 (-800)).
  { apply Rle_trans with (powerRZ 2 (-810) * powerRZ 2 2); [simpl (powerRZ 2 2); pose proof (pow2_pos (-810)); lra|]. rewrite pow2_mul. apply pow2_le. lia. }
  assert (P2 : powerRZ 2 800 * 4 <= powerRZ 2 900).
  { apply Rle_trans with (powerRZ 2 800 * powerRZ 2 2); [simpl (powerRZ 2 2); pose proof (pow2_pos 800); lra|]. rewrite pow2_mul. apply pow2_le. lia. }
  assert (P3 : powerRZ 2 (-810) <= powerRZ 2 800) by (apply pow2_le; lia).
  assert (E40 : powerRZ 2 40 = 1099511627776) by (simpl; lra).
  assert (HF : Forall nonneg64 (map t L)).
  { rewrite Forall_map, Forall_forall. intros a Ha. apply H. exact Ha. }
  assert (HB' : Rsum (map fval (map t L)) <= powerRZ 2 900).
  { destruct A1 as [_ A1]. assert (Rsum (map g L) * (1 + k) <= Rsum (map g L) * 2) by (apply Rmult_le_compat_l; [exact G0|]; rewrite U in Hk; lra). lra. }
  destruct (summed_ok _ _ S HF ltac:(rewrite map_length; exact HN) HB') as (F & V & A2 & _). rewrite map_length in A2.
  split; [exact F|]. split; [exact V|]. split; [exact G0|].
  assert (K1 : 2 * INR (length L) * u64 <= / 4096) by (rewrite U; lra).
  assert (K0 : 0 <= 2 * INR (length L) * u64) by (apply Rmult_le_pos; lra).
  assert (KS : k <= 1) by (rewrite U in Hk; lra).
  assert (K2 : k * (2 * INR (length L) * u64) <= u64).
  { apply Rle_trans with (5 * u64 * / 4096); [apply Rmult_le_compat; lra|lra]. }
  assert (Q850 : 0 <= INR (length L) * powerRZ 2 (-850)) by (apply Rmult_le_pos; [exact N0|left; apply pow2_pos]).
  assert (C := around_trans _ _ _ _ _ _ _ G0 (conj (proj1 Hk) KS) Q850 (conj K0 (ltac:(lra) : 2 * INR (length L) * u64 <= 1)) A1 A2).
  eapply around_mono; [exact G0|exact C|lra|lra].
Qed.

(** ** the norms *)
Definition item : Type := f64 * f64 * f64 * option R.
Definition item_ok (b : R) (i : item) : Prop :=
  let '(d, w, y, x) := i in
  finite64 d /\ moderate (fval d) /\ finite64 w /\ weight (fval w) /\ error_holds x b y /\ (forall r, x = Some r -> Rabs r <= 1000).
Definition t_area (i : item) : f64 := let '(d, w, y, _) := i in mul (mul d w) (finite01 y).
Definition t_square (i : item) : f64 := let '(d, w, y, _) := i in tidy (mul (div w d) (mul y y)).
Definition t_abs (i : item) : f64 := let '(d, w, y, _) := i in tidy (mul w (fabs y)).
Definition on (x : option R) (r : R) : R := match x with Some _ => r | None => 0 end.
Definition r_area (i : item) : R := let '(d, w, _, x) := i in on x (fval d * fval w).
Definition r_ratio (i : item) : R := let '(d, w, _, x) := i in on x (fval w / fval d).
Definition r_width (i : item) : R := let '(d, w, _, x) := i in on x (fval w).
Definition r_y (i : item) : R := let '(_, _, y, x) := i in on x (fval y).
Definition r_x (i : item) : R := let '(_, _, _, x) := i in match x with Some r => r | None => 0 end.

Section Terms.
  Variable b : R.
  Hypothesis Hb : powerRZ 2 (-100) <= b <= 1.

  Lemma y_small (y : f64) x : S_float.within y x b -> Rabs x <= 1000 -> finite64 y /\ Rabs (fval y) <= 1001.
  Proof.
    intros [F W] H. split; [exact F|]. set (v := fval y) in *. clearbody v. replace v with (x + (v - x)) by ring.
    eapply Rle_trans; [apply Rabs_triang|]. lra.
  Qed.

  Lemma finite01_fin (y : f64) : finite64 y -> finite01 y = one.
  Proof. destruct y; intros H; [reflexivity|elim H|elim H|reflexivity]. Qed.
  Lemma one_fin : finite64 (one : f64) /\ fval (one : f64) = 1.
  Proof. exact fl_one. Qed.

  Lemma zero_term t : 0 <= t -> nonneg64 zero /\ 0 <= 0 /\ around (fval (zero : f64)) 0 (5 * u64) t.
  Proof. intros H. split; [split; [exact I|simpl; lra]|]. split; [lra|]. unfold around. simpl. lra. Qed.

  Lemma mul_one (m : f64) : finite64 m -> finite64 (mul m one) /\ fval (mul m one) = fval m.
  Proof.
    intros F. destruct one_fin as [F1 E1]. assert (Q : rnd (fval m * fval (one : f64)) = fval m) by (rewrite E1, Rmult_1_r; apply rnd_fval; exact F).
    assert (G : Rabs (rnd (fval m * fval (one : f64))) < bpow radix2 1024).
    { rewrite Q. destruct (finite64_B _ F) as (bx & _ & _ & <-). apply BinarySingleNaN.abs_B2R_lt_emax. }
    destruct (mul_val m one F F1 G) as [F' E']. split; [exact F'|]. etransitivity; [exact E'|exact Q].
  Qed.

  Lemma area_ok i : item_ok b i -> nonneg64 (t_area i) /\ 0 <= r_area i /\ around (fval (t_area i)) (r_area i) (2 * u64) (powerRZ 2 (-850))
    /\ (r_area i = 0 \/ powerRZ 2 (-200) <= r_area i) /\ r_area i <= powerRZ 2 200.
  Proof.
    destruct i as [[[d w] y] x]. intros (Fd & Hd & Fw & Hw & He & Hx).
    destruct (area_term d w Fd Hd Fw Hw) as ((F & V) & A & B & C). pose proof (pow2_pos (-850)) as P. pose proof (pow2_pos 200) as P'.
    destruct one_fin as [F1 E1]. cbn [t_area r_area]. destruct x as [r|]; cbn [on error_holds] in *.
    - destruct (y_small y r He (Hx r eq_refl)) as [Fy _]. rewrite (finite01_fin y Fy).
      assert (M : finite64 (mul (mul d w) one) /\ fval (mul (mul d w) one) = fval (mul d w)) by exact (mul_one _ F).
      destruct M as [F' E']. split; [split; [exact F'|rewrite E'; exact V]|]. split; [apply C|]. rewrite E'.
      split; [eapply around_mono; [apply C|exact A|lra|lra]|]. split; [exact B|apply C].
    - rewrite He. change (finite01 (nan : f64)) with (zero : f64).
      assert (Z : nonneg64 (mul (mul d w) zero) /\ fval (mul (mul d w) zero) = 0).
      { set (m := mul d w) in *. clearbody m. destruct m as [s|s| |s mm e]; [|elim F|elim F|]; split; try reflexivity; split; solve [exact I|simpl; lra]. }
      destruct Z as [Z1 Z2]. split; [exact Z1|]. rewrite Z2. split; [lra|]. split; [unfold around; lra|]. split; [left; reflexivity|lra].
  Qed.

  Lemma square_ok i : item_ok b i -> nonneg64 (t_square i) /\ 0 <= r_ratio i * (r_y i * r_y i)
    /\ around (fval (t_square i)) (r_ratio i * (r_y i * r_y i)) (5 * u64) (powerRZ 2 (-850))
    /\ 0 <= r_ratio i <= powerRZ 2 200 /\ Rabs (r_y i - r_x i) <= b /\ Rabs (r_y i) <= 1001.
  Proof.
    destruct i as [[[d w] y] x]. intros (Fd & Hd & Fw & Hw & He & Hx).
    destruct (ratio_term d w Fd Hd Fw Hw) as (_ & _ & P1). pose proof (pow2_pos (-850)) as P. pose proof (pow2_pos 200) as P'. pose proof (pow2_pos (-100)) as P''.
    cbn [t_square r_ratio r_y r_x]. destruct x as [r|]; cbn [on error_holds] in *.
    - destruct (y_small y r He (Hx r eq_refl)) as [Fy Yy]. destruct (square_term d w y Fd Hd Fw Hw Fy Yy) as [N A].
      rewrite tidy_fin by apply N. split; [exact N|]. split; [apply Rmult_le_pos; [apply P1|apply Rle_0_sqr]|]. split; [exact A|].
      split; [exact P1|]. split; [apply He|exact Yy].
    - rewrite He. change (mul (nan : f64) nan) with (S754_nan : f64). rewrite mul_nan_r, tidy_nan.
      destruct (zero_term (powerRZ 2 (-850)) ltac:(lra)) as (Z1 & Z2 & Z3). split; [exact Z1|].
      rewrite Rmult_0_l. split; [lra|]. split; [exact Z3|]. split; [lra|]. rewrite Rminus_0_r, Rabs_R0. lra.
  Qed.

  Lemma abs_ok i : item_ok b i -> nonneg64 (t_abs i) /\ 0 <= r_width i * Rabs (r_y i)
    /\ around (fval (t_abs i)) (r_width i * Rabs (r_y i)) (u64) (powerRZ 2 (-850)) /\ 0 <= r_width i <= powerRZ 2 100.
  Proof.
    destruct i as [[[d w] y] x]. intros (Fd & Hd & Fw & Hw & He & Hx).
    pose proof (pow2_pos (-850)) as P. pose proof (pow2_pos 100) as P'. pose proof (pow2_pos (-100)) as P''.
    assert (P1 : 0 <= fval w <= powerRZ 2 100) by (destruct Hw as [->|[W1 W2]]; lra).
    cbn [t_abs r_width r_y]. destruct x as [r|]; cbn [on error_holds] in *.
    - destruct (y_small y r He (Hx r eq_refl)) as [Fy Yy]. destruct (abs_term w y Fw Hw Fy Yy) as [N A].
      rewrite tidy_fin by apply N. split; [exact N|]. split; [apply Rmult_le_pos; [apply P1|apply Rabs_pos]|]. split; [exact A|exact P1].
    - rewrite He. change (fabs (nan : f64)) with (S754_nan : f64). rewrite mul_nan_r, tidy_nan.
      destruct (zero_term (powerRZ 2 (-850)) ltac:(lra)) as (Z1 & Z2 & Z3). split; [exact Z1|].
      rewrite Rmult_0_l. split; [lra|]. split; [unfold around; simpl; lra|lra].
  Qed.
End Terms.

Lemma sum_zero_or {T} (g : T -> R) c l : (forall i, In i l -> 0 <= g i /\ (g i = 0 \/ c <= g i)) -> Rsum (map g l) = 0 \/ c <= Rsum (map g l).
Proof.
  induction l as [|i l IH]; intros H; [left; reflexivity|]. rewrite sum_cons.
  destruct (H i (or_introl eq_refl)) as [I1 I2].
  assert (I3 : 0 <= Rsum (map g l)) by (apply Rsum_pos_map; intros j Hj; apply (H j (or_intror Hj))).
  destruct (IH (fun j Hj => H j (or_intror Hj))) as [I4|I4]; [rewrite I4|right; lra].
  destruct I2 as [->|I2]; [left; lra|right; lra].
Qed.
Lemma sum_zero_all {T} (g : T -> R) l : (forall i, In i l -> 0 <= g i) -> Rsum (map g l) = 0 -> forall i, In i l -> g i = 0.
Proof.
  induction l as [|i l IH]; intros H E; [intros i []|]. rewrite sum_cons in E.
  assert (I3 : 0 <= Rsum (map g l)) by (apply Rsum_pos_map; intros j Hj; apply (H j (or_intror Hj))).
  assert (I1 := H i (or_introl eq_refl)). intros j [<-|Hj]; [lra|].
  apply (IH (fun j Hj => H j (or_intror Hj)) ltac:(lra) j Hj).
Qed.
Lemma sum_zeros {T} (g : T -> R) l : (forall i, In i l -> g i = 0) -> Rsum (map g l) = 0.
Proof.
  induction l as [|i l IH]; intros W; [reflexivity|]. rewrite sum_cons, (W i (or_introl eq_refl)), IH; [lra|]. intros j Hj. apply W. right. exact Hj.
Qed.
Lemma abs_sums {T} (w x y : T -> R) b c l : (forall i, In i l -> 0 <= w i <= c /\ Rabs (y i - x i) <= b) ->
  Rsum (map (fun i => w i * Rabs (y i)) l) <= Rsum (map (fun i => w i * Rabs (x i)) l) + Rsum (map w l) * b
  /\ Rsum (map (fun i => w i * Rabs (x i)) l) <= Rsum (map (fun i => w i * Rabs (y i)) l) + Rsum (map w l) * b.
Proof.
  induction l as [|i l IH]; intros H; [simpl; lra|]. rewrite !sum_cons.
  destruct (IH (fun j Hj => H j (or_intror Hj))) as [I1 I2]. destruct (H i (or_introl eq_refl)) as [[W _] E].
  assert (T1 : Rabs (y i) <= Rabs (x i) + b).
  { replace (y i) with (x i + (y i - x i)) by ring. eapply Rle_trans; [apply Rabs_triang|]. lra. }
  assert (T2 : Rabs (x i) <= Rabs (y i) + b).
  { replace (x i) with (y i - (y i - x i)) by ring. unfold Rminus at 1. eapply Rle_trans; [apply Rabs_triang|]. rewrite Rabs_Ropp. lra. }
  assert (w i * Rabs (y i) <= w i * (Rabs (x i) + b)) by (apply Rmult_le_compat_l; assumption).
  assert (w i * Rabs (x i) <= w i * (Rabs (y i) + b)) by (apply Rmult_le_compat_l; assumption). lra.
Qed.

Section Means.
  Variables (b : R) (L : list item) (A S B : f64).
  Hypothesis Hb : powerRZ 2 (-100) <= b <= 1.
  Hypothesis HL : Forall (item_ok b) L.
  Hypothesis HN : INR (length L) <= powerRZ 2 40.
  Hypotheses (HA : summed (map t_area L) A) (HS : summed (map t_square L) S) (HB : summed (map t_abs L) B).
  Let N := INR (length L).
  Let TA := Rsum (map r_area L).
  Let X2 := Rsum (map (fun i => r_ratio i * (r_x i * r_x i)) L).
  Let Y2 := Rsum (map (fun i => r_ratio i * (r_y i * r_y i)) L).
  Let P2 := Rsum (map r_ratio L).
  Let X1 := Rsum (map (fun i => r_width i * Rabs (r_x i)) L).
  Let Y1 := Rsum (map (fun i => r_width i * Rabs (r_y i)) L).
  Let P1 := Rsum (map r_width L).

  Let ok i : In i L -> item_ok b i.
  Proof. intros H. rewrite Forall_forall in HL. apply HL. exact H. Qed.

  Lemma sum_bound {T} (g : T -> R) c l : (forall i, In i l -> g i <= c) -> Rsum (map g l) <= INR (length l) * c.
  Proof.
    intros H. induction l as [|a l IH]; [simpl; lra|]. rewrite sum_cons. cbn [length]. rewrite S_INR.
    assert (g a <= c) by (apply H; left; reflexivity). assert (Rsum (map g l) <= INR (length l) * c) by (apply IH; intros; apply H; right; assumption). lra.
  Qed.
  Lemma sum_big {T} (g : T -> R) e l : (forall i, In i l -> g i <= powerRZ 2 e) -> INR (length l) <= powerRZ 2 40 -> Rsum (map g l) <= powerRZ 2 (40 + e).
  Proof.
    intros H Hn. eapply Rle_trans; [apply sum_bound; exact H|]. rewrite <- pow2_mul. apply Rmult_le_compat_r; [left; apply pow2_pos|exact Hn].
  Qed.

  Lemma area_sum : finite64 A /\ (TA = 0 -> fval A = 0) /\ (TA <> 0 -> powerRZ 2 (-200) <= TA /\ around (fval A) TA ((2 * N + 4) * u64) 0).
  Proof.
    assert (Hok := fun i Hi => area_ok b Hb i (ok i Hi)). pose proof u64_pos as U0. pose proof u64_eq as U.
    assert (T0 : TA <= powerRZ 2 800).
    { eapply Rle_trans; [apply sum_big; [intros i Hi; apply (Hok i Hi)|exact HN]|]. apply pow2_le. lia. }
    assert (Q : TA = 0 \/ powerRZ 2 (-200) <= TA).
    { apply sum_zero_or. intros i Hi. destruct (Hok i Hi) as (_ & I1 & _ & I2 & _). split; assumption. }
    destruct (sum_terms L t_area r_area (2 * u64) A HA) as (F & V & G & Ar).
    { intros i Hi. destruct (Hok i Hi) as (I1 & I2 & I3 & _). split; [exact I1|]. split; assumption. }
    { exact HN. } { exact T0. } { lra. }
    fold TA in G, Ar. fold N in Ar.
    split; [exact F|]. split.
    - intros E. 
      assert (Z : forall i, In i L -> r_area i = 0).
      { apply sum_zero_all; [intros i Hi; apply (Hok i Hi)|exact E]. }
      assert (Z' : Rsum (map fval (map t_area L)) = 0).
      { rewrite map_map.
        assert (W : forall i, In i L -> fval (t_area i) = 0).
        { intros i Hi. assert (Zi := Z i Hi). assert (O := ok i Hi). destruct i as [[[d w] y] x]. 
          destruct O as (Fd & Hd & Fw & Hw & He & Hx). clear F V G Ar.
          destruct (area_term d w Fd Hd Fw Hw) as ((F & V) & Ar & _). cbn [r_area t_area] in *.
          destruct x as [r|]; cbn [on error_holds] in *.
          - destruct (y_small b Hb y r He (Hx r eq_refl)) as [Fy _]. rewrite (finite01_fin y Fy).
            destruct (mul_one _ F) as [_ E']. rewrite E'. rewrite Zi in Ar. unfold around in Ar. lra.
          - rewrite He. change (finite01 (nan : f64)) with (zero : f64). set (m := mul d w) in *. clearbody m.
            destruct m as [s|s| |s mm e]; [|elim F|elim F|]; reflexivity. }
        apply sum_zeros. exact W. }
      apply (summed_ok _ _ HA); [|rewrite map_length; exact HN| |exact Z'].
      + rewrite Forall_map, Forall_forall. intros i Hi. apply (Hok i Hi).
      + rewrite Z'. left. apply pow2_pos.
    - intros NZ. destruct Q as [Q|Q]; [contradiction|]. split; [exact Q|].
      assert (E : powerRZ 2 (-800) <= u64 * TA).
      { apply Rle_trans with (u64 * powerRZ 2 (-200)); [|apply Rmult_le_compat_l; lra]. rewrite u64_pow, pow2_mul. apply pow2_le. lia. }
      unfold around in *. lra.
  Qed.

  Hypothesis NZ : TA <> 0.
  Let N0 : 0 <= N. Proof. apply pos_INR. Qed.
  Let N1 : 1 <= N.
  Proof.
    unfold N. assert (length L <> 0%nat) by (intros E; apply NZ; unfold TA; destruct L; [reflexivity|discriminate]).
    apply (le_INR 1). lia.
  Qed.
  Let Nu : N * u64 <= / 8192.
  Proof.
    rewrite u64_eq. assert (E40 : powerRZ 2 40 = 1099511627776) by (simpl; lra). fold N in HN. lra.
  Qed.

  (** the quotient of a sum by the area *)
  Lemma quotient (X : f64) v k : finite64 X -> 0 <= fval X -> 0 <= v <= powerRZ 2 300 -> 0 <= k <= (2 * N + 6) * u64 -> around (fval X) v k (powerRZ 2 (-800)) ->
    finite64 (div X A) /\ 0 <= fval (div X A) /\ around (fval (div X A)) (v / TA) (k + (102 / 100 * (2 * N + 4) + 101 / 100) * u64) (powerRZ 2 (-597)).
  Proof.
    intros FX VX Hv Hk AX. destruct area_sum as (FA & _ & Q). destruct (Q NZ) as [TA0 AA]. clear Q. pose proof u64_pos as U0. pose proof u64_eq as U.
    pose proof (pow2_pos (-200)) as P200. pose proof (pow2_pos (-800)) as P800.
    assert (TAp : 0 < TA) by lra.
    assert (k2 : 0 <= (2 * N + 4) * u64 <= / 1000) by (split; [apply Rmult_le_pos; lra|rewrite U in *; lra]).
    assert (k1 : 0 <= k <= / 1000) by (rewrite U in *; lra).
    assert (Ap : 0 < fval A).
    { destruct AA as [AA _]. assert (0 < TA * (1 - (2 * N + 4) * u64)) by (apply Rmult_lt_0_compat; lra). lra. }
    assert (D := around_div _ _ _ _ _ _ _ (proj1 Hv) TAp k1 k2 (Rlt_le _ _ P800) AX AA VX).
    assert (IT : / TA <= powerRZ 2 200).
    { replace (powerRZ 2 200) with (/ powerRZ 2 (-200)); [apply Rinv_le_contravar; lra|]. change (-200)%Z with (- (200))%Z. rewrite pow2_inv. apply Rinv_inv. }
    assert (T1 : 2 * powerRZ 2 (-800) / TA <= powerRZ 2 (-599)).
    { unfold Rdiv. rewrite pow_double. change (-599)%Z with (-800 + 1 + 200)%Z. rewrite <- (pow2_mul (-800 + 1)). apply Rmult_le_compat_l; [left; apply pow2_pos|exact IT]. }
    assert (IP : 0 < / TA) by (apply Rinv_0_lt_compat; exact TAp).
    assert (vT : 0 <= v / TA <= powerRZ 2 500).
    { unfold Rdiv. split; [apply Rmult_le_pos; lra|]. change 500%Z with (300 + 200)%Z. rewrite <- pow2_mul. apply Rmult_le_compat; lra. }
    assert (D' : around (fval X / fval A) (v / TA) (k + 102 / 100 * ((2 * N + 4) * u64)) (powerRZ 2 (-599))).
    { eapply around_mono; [apply vT|exact D|lra|exact T1]. }
    clear D. assert (q0 : 0 <= fval X / fval A) by (apply Rmult_le_pos; [exact VX|left; apply Rinv_0_lt_compat; exact Ap]).
    assert (q1 : fval X / fval A <= big64).
    { destruct D' as [_ D']. assert (v / TA * (1 + (k + 102 / 100 * ((2 * N + 4) * u64))) <= v / TA * 2) by (apply Rmult_le_compat_l; lra).
      assert (powerRZ 2 (-599) <= powerRZ 2 500) by (apply pow2_le; lia).
      assert (powerRZ 2 500 * 4 <= big64).
      { apply Rle_trans with (powerRZ 2 500 * powerRZ 2 2); [simpl (powerRZ 2 2); pose proof (pow2_pos 500); lra|]. rewrite pow2_mul. apply pow2_le. lia. }
      lra. }
    destruct (div_rounds X A FX FA ltac:(lra) (conj q0 q1)) as (F & V & R & _).
    split; [exact F|]. split; [exact V|].
    assert (k3 : 0 <= k + 102 / 100 * ((2 * N + 4) * u64) <= / 100) by lra.
    assert (C := around_trans _ _ _ _ _ _ _ (proj1 vT) (conj (proj1 k3) (ltac:(lra) : k + 102 / 100 * ((2 * N + 4) * u64) <= 1)) (Rlt_le _ _ (pow2_pos (-599)))
       (conj (Rlt_le _ _ U0) (ltac:(rewrite U; lra) : u64 <= 1)) D' R).
    eapply around_mono; [apply vT|exact C| |].
    - assert ((k + 102 / 100 * ((2 * N + 4) * u64)) * u64 <= / 100 * u64) by (apply Rmult_le_compat_r; lra). lra.
    - unfold eta64. rewrite pow_double. assert (powerRZ 2 (-1075) <= powerRZ 2 (-598)) by (apply pow2_le; lia). simpl Z.add.
      assert (E : powerRZ 2 (-597) = 2 * powerRZ 2 (-598)) by (rewrite pow_double; reflexivity). rewrite E. lra.
  Qed.

  Let eps := INR (length L + 1) * powerRZ 2 (-50).
  Let eps_eq : eps = 8 * (N + 1) * u64.
  Proof. unfold eps. rewrite plus_INR. fold N. change (INR 1) with 1. change (-50)%Z with (3 + -53)%Z. rewrite <- pow2_mul, <- u64_pow. simpl (powerRZ 2 3). ring. Qed.

  Lemma ratio_low i : In i L -> r_area i * powerRZ 2 (-200) <= r_ratio i /\ r_area i * powerRZ 2 (-100) <= r_width i.
  Proof.
    intros Hi. assert (O := ok i Hi). destruct i as [[[d w] y] x]. destruct O as (Fd & [D1 D2] & Fw & Hw & _).
    pose proof (pow2_pos (-100)) as p. pose proof (pow2_pos (-200)) as p'. cbn [r_area r_ratio r_width]. destruct x; cbn [on]; [|lra].
    assert (W : 0 <= fval w) by (destruct Hw as [->|[W1 W2]]; lra).
    assert (I1 : powerRZ 2 (-100) <= / fval d).
    { change (-100)%Z with (- (100))%Z. rewrite pow2_inv. apply Rinv_le_contravar; lra. }
    assert (I2 : fval d * powerRZ 2 (-100) <= 1).
    { apply Rle_trans with (fval d * / fval d); [apply Rmult_le_compat_l; lra|]. rewrite Rinv_r; lra. }
    split.
    - change (-200)%Z with (-100 + -100)%Z. rewrite <- pow2_mul. unfold Rdiv.
      replace (fval d * fval w * (powerRZ 2 (-100) * powerRZ 2 (-100))) with (fval w * ((fval d * powerRZ 2 (-100)) * powerRZ 2 (-100))) by ring.
      apply Rmult_le_compat_l; [exact W|]. apply Rle_trans with (1 * powerRZ 2 (-100)); [apply Rmult_le_compat_r; lra|lra].
    - replace (fval d * fval w * powerRZ 2 (-100)) with (fval w * (fval d * powerRZ 2 (-100))) by ring.
      rewrite <- (Rmult_1_r (fval w)) at 2. apply Rmult_le_compat_l; lra.
  Qed.
  Lemma sum_scale {T} (f : T -> R) c l : Rsum (map (fun i => f i * c) l) = Rsum (map f l) * c.
  Proof. induction l as [|a l IH]; [simpl; lra|]. rewrite !sum_cons, IH. ring. Qed.

  Lemma rms_within : S_float.within (fsqrt (div S A) : f64) (sqrt (X2 / TA)) (2 * b * sqrt (P2 / TA) + eps * sqrt (X2 / TA)).
  Proof.
    destruct area_sum as (FA & _ & Q). destruct (Q NZ) as [TA0 _]. clear Q. pose proof u64_pos as U0. pose proof u64_eq as U.
    pose proof (pow2_pos (-200)) as P200. assert (TAp : 0 < TA) by lra. pose proof (pow2_pos (-100)) as P100.
    assert (Hok := fun i Hi => square_ok b Hb i (ok i Hi)).
    assert (YB : Y2 <= powerRZ 2 300).
    { eapply Rle_trans; [apply (sum_big _ 220); [|exact HN]|apply pow2_le; lia]. intros i Hi. destruct (Hok i Hi) as (_ & _ & _ & [I1 I2] & _ & I3).
      change 220%Z with (200 + 20)%Z. rewrite <- pow2_mul. pose proof (Rle_0_sqr (r_y i)) as S0. unfold Rsqr in S0.
      apply Rmult_le_compat; try assumption.
      replace (r_y i * r_y i) with (Rabs (r_y i) * Rabs (r_y i)) by (rewrite <- Rabs_mult; apply Rabs_right; apply Rle_ge, Rle_0_sqr).
      apply Rle_trans with (1001 * 1001); [pose proof (Rabs_pos (r_y i)); apply Rmult_le_compat; assumption|simpl; lra]. }
    destruct (sum_terms L t_square (fun i => r_ratio i * (r_y i * r_y i)) (5 * u64) S HS) as (F & V & G & Ar).
    { intros i Hi. destruct (Hok i Hi) as (I1 & I2 & I3 & _). split; [exact I1|]. split; assumption. }
    { exact HN. } { eapply Rle_trans; [exact YB|apply pow2_le; lia]. } { lra. }
    fold Y2 in G, Ar. fold N in Ar.
    destruct (quotient S Y2 (5 * u64 + (2 * N + 1) * u64) F V (conj G YB) ltac:(split; [|lra]; assert (0 <= (2 * N + 1) * u64) by (apply Rmult_le_pos; lra); lra) Ar) as (F' & V' & A').
    assert (YT : 0 <= Y2 / TA) by (apply Rmult_le_pos; [exact G|left; apply Rinv_0_lt_compat; exact TAp]).
    assert (KB : 0 <= 5 * u64 + (2 * N + 1) * u64 + (102 / 100 * (2 * N + 4) + 101 / 100) * u64 <= / 100).
    { split; [|rewrite U in *; lra]. assert (0 <= N * u64) by (apply Rmult_le_pos; lra). lra. }
    assert (A1 := around_sqrt' _ _ _ _ YT V' KB (Rlt_le _ _ (pow2_pos (-597))) A').
    assert (ST : sqrt (powerRZ 2 (-597)) <= powerRZ 2 (-298)).
    { rewrite <- (sqrt_square (powerRZ 2 (-298))) by (left; apply pow2_pos). apply sqrt_le_1_alt. rewrite pow2_mul. apply pow2_le. lia. }
    destruct (sf_sqrt_near (div S A) F' V') as [F'' A2]. change (sf_sqrt (div S A)) with (fsqrt (div S A) : f64) in F'', A2.
    split; [exact F''|].
    rewrite (Rabs_pos_eq (sqrt (fval (div S A)))) in A2 by apply sqrt_pos.
    assert (A3 : around (fval (fsqrt (div S A) : f64)) (sqrt (fval (div S A))) u64 eta64).
    { apply abs_le_of in A2. unfold around. lra. }
    assert (KC : 0 <= 51 / 100 * (5 * u64 + (2 * N + 1) * u64 + (102 / 100 * (2 * N + 4) + 101 / 100) * u64) <= 1) by lra.
    assert (C := around_trans _ _ _ _ _ _ _ (sqrt_pos (Y2 / TA)) KC
      (sqrt_pos _) (conj (Rlt_le _ _ U0) (ltac:(rewrite U; lra) : u64 <= 1)) A1 A3).
    assert (C' : around (fval (fsqrt (div S A) : f64)) (sqrt (Y2 / TA)) eps (powerRZ 2 (-296))).
    { eapply around_mono; [apply sqrt_pos|exact C| |].
      - rewrite eps_eq. assert (51 / 100 * (5 * u64 + (2 * N + 1) * u64 + (102 / 100 * (2 * N + 4) + 101 / 100) * u64) * u64 <= 1 / 100 * u64) by (apply Rmult_le_compat_r; lra).
        assert (1 * u64 <= N * u64) by (apply Rmult_le_compat_r; lra). lra.
      - assert (E1 : powerRZ 2 (-296) = 2 * powerRZ 2 (-297)) by (rewrite pow_double; reflexivity).
        assert (E2 : powerRZ 2 (-297) = 2 * powerRZ 2 (-298)) by (rewrite pow_double; reflexivity).
        assert (E3 : eta64 <= powerRZ 2 (-298)) by (apply pow2_le; lia). pose proof (pow2_pos (-298)). lra. }
    clear C A1 A2 A3.
    (* the exact mean of the computed errors *)
    assert (M1 := minkowski r_ratio r_x r_y b L (fun i Hi => proj1 (proj1 (proj2 (proj2 (proj2 (Hok i Hi)))))) (ltac:(lra) : 0 <= b)
      (fun i Hi => proj1 (proj2 (proj2 (proj2 (proj2 (Hok i Hi))))))).
    assert (M2 := minkowski r_ratio r_y r_x b L (fun i Hi => proj1 (proj1 (proj2 (proj2 (proj2 (Hok i Hi)))))) (ltac:(lra) : 0 <= b)
      (fun i Hi => eq_ind_r (fun z => z <= b) (proj1 (proj2 (proj2 (proj2 (proj2 (Hok i Hi)))))) (Rabs_minus_sym (r_x i) (r_y i)))).
    fold Y2 X2 P2 in M1, M2.
    assert (IP : 0 < / sqrt TA) by (apply Rinv_0_lt_compat, sqrt_lt_R0; exact TAp).
    assert (D1 : sqrt (Y2 / TA) <= sqrt (X2 / TA) + b * sqrt (P2 / TA)).
    { rewrite !sqrt_div_alt by exact TAp. unfold Rdiv. rewrite <- Rmult_assoc, <- Rmult_plus_distr_r. apply Rmult_le_compat_r; lra. }
    assert (D2 : sqrt (X2 / TA) <= sqrt (Y2 / TA) + b * sqrt (P2 / TA)).
    { rewrite !sqrt_div_alt by exact TAp. unfold Rdiv. rewrite <- Rmult_assoc, <- Rmult_plus_distr_r. apply Rmult_le_compat_r; lra. }
    assert (PL : powerRZ 2 (-100) <= sqrt (P2 / TA)).
    { rewrite <- (sqrt_square (powerRZ 2 (-100))) by lra. apply sqrt_le_1_alt. rewrite pow2_mul.
      apply Rmult_le_reg_r with TA; [exact TAp|]. unfold Rdiv. rewrite Rmult_assoc, Rinv_l, Rmult_1_r by lra. rewrite Rmult_comm.
      unfold TA, P2. rewrite <- sum_scale. apply sum_le. intros i Hi. apply (ratio_low i Hi). }
    assert (BP : 4 * powerRZ 2 (-296) <= b * sqrt (P2 / TA)).
    { apply Rle_trans with (powerRZ 2 (-100) * powerRZ 2 (-100)); [|apply Rmult_le_compat; lra].
      apply Rle_trans with (powerRZ 2 2 * powerRZ 2 (-296)); [simpl (powerRZ 2 2); lra|]. rewrite !pow2_mul. apply pow2_le. lia. }
    assert (EB : 0 <= eps <= / 2). { rewrite eps_eq. assert (0 <= N * u64) by (apply Rmult_le_pos; lra). rewrite U in *. lra. }
    set (z := fval (fsqrt (div S A) : f64)) in *. set (rx := sqrt (X2 / TA)) in *. set (ry := sqrt (Y2 / TA)) in *. set (ri := sqrt (P2 / TA)) in *.
    assert (ry0 : 0 <= ry) by apply sqrt_pos. assert (rx0 : 0 <= rx) by apply sqrt_pos. clearbody z rx ry ri eps.
    destruct C' as [C1 C2]. clear - C1 C2 D1 D2 BP EB ry0 rx0 P100 Hb PL.
    assert (0 <= b * ri) by (apply Rmult_le_pos; lra).
    assert (T1 : eps * ry <= eps * (rx + b * ri)) by (apply Rmult_le_compat_l; lra).
    assert (T2 : eps * (b * ri) <= / 2 * (b * ri)) by (apply Rmult_le_compat_r; lra).
    apply Rabs_le. split; lra.
  Qed.

  Lemma mav_within : S_float.within (div B A : f64) (X1 / TA) (2 * b * (P1 / TA) + eps * (X1 / TA)).
  Proof.
    destruct area_sum as (FA & _ & Q). destruct (Q NZ) as [TA0 _]. clear Q. pose proof u64_pos as U0. pose proof u64_eq as U.
    pose proof (pow2_pos (-200)) as P200. assert (TAp : 0 < TA) by lra. pose proof (pow2_pos (-100)) as P100.
    assert (Hok := fun i Hi => abs_ok b Hb i (ok i Hi)). assert (Hsq := fun i Hi => square_ok b Hb i (ok i Hi)).
    assert (YB : Y1 <= powerRZ 2 300).
    { eapply Rle_trans; [apply (sum_big _ 120); [|exact HN]|apply pow2_le; lia]. intros i Hi. destruct (Hok i Hi) as (_ & _ & _ & I1 & I2). destruct (Hsq i Hi) as (_ & _ & _ & _ & _ & I3).
      change 120%Z with (100 + 20)%Z. rewrite <- pow2_mul. pose proof (Rabs_pos (r_y i)).
      apply Rmult_le_compat; try assumption. simpl; lra. }
    destruct (sum_terms L t_abs (fun i => r_width i * Rabs (r_y i)) u64 B HB) as (F & V & G & Ar).
    { intros i Hi. destruct (Hok i Hi) as (I1 & I2 & I3 & _). split; [exact I1|]. split; assumption. }
    { exact HN. } { eapply Rle_trans; [exact YB|apply pow2_le; lia]. } { lra. }
    fold Y1 in G, Ar. fold N in Ar.
    destruct (quotient B Y1 (u64 + (2 * N + 1) * u64) F V (conj G YB) ltac:(split; [|lra]; assert (0 <= (2 * N + 1) * u64) by (apply Rmult_le_pos; lra); lra) Ar) as (F' & V' & A').
    split; [exact F'|].
    assert (YT : 0 <= Y1 / TA) by (apply Rmult_le_pos; [exact G|left; apply Rinv_0_lt_compat; exact TAp]).
    assert (C : around (fval (div B A)) (Y1 / TA) eps (powerRZ 2 (-597))).
    { eapply around_mono; [exact YT|exact A'| |lra]. rewrite eps_eq. assert (1 * u64 <= N * u64) by (apply Rmult_le_compat_r; lra). lra. }
    assert (IP : 0 < / TA) by (apply Rinv_0_lt_compat; exact TAp).
    assert (DY : Y1 <= X1 + P1 * b /\ X1 <= Y1 + P1 * b).
    { apply abs_sums with (powerRZ 2 100). intros i Hi. split; [apply (Hok i Hi)|apply (Hsq i Hi)]. }
    assert (D1 : Y1 / TA <= X1 / TA + b * (P1 / TA)).
    { unfold Rdiv. replace (X1 * / TA + b * (P1 * / TA)) with ((X1 + P1 * b) * / TA) by ring. apply Rmult_le_compat_r; [lra|apply DY]. }
    assert (D2 : X1 / TA <= Y1 / TA + b * (P1 / TA)).
    { unfold Rdiv. replace (Y1 * / TA + b * (P1 * / TA)) with ((Y1 + P1 * b) * / TA) by ring. apply Rmult_le_compat_r; [lra|apply DY]. }
    assert (PL : powerRZ 2 (-100) <= P1 / TA).
    { apply Rmult_le_reg_r with TA; [exact TAp|]. unfold Rdiv. rewrite Rmult_assoc, Rinv_l, Rmult_1_r by lra. rewrite Rmult_comm.
      unfold TA, P1. rewrite <- sum_scale. apply sum_le. intros i Hi. apply (ratio_low i Hi). }
    assert (BP : 4 * powerRZ 2 (-597) <= b * (P1 / TA)).
    { apply Rle_trans with (powerRZ 2 (-100) * powerRZ 2 (-100)); [|apply Rmult_le_compat; lra].
      apply Rle_trans with (powerRZ 2 2 * powerRZ 2 (-597)); [simpl (powerRZ 2 2); pose proof (pow2_pos (-597)); lra|]. rewrite !pow2_mul. apply pow2_le. lia. }
    assert (EB : 0 <= eps <= / 2). { rewrite eps_eq. assert (0 <= N * u64) by (apply Rmult_le_pos; lra). rewrite U in *. lra. }
    assert (rx0 : 0 <= X1 / TA).
    { apply Rmult_le_pos; [|lra]. apply Rsum_pos_map. intros i Hi. apply Rmult_le_pos; [apply (Hok i Hi)|apply Rabs_pos]. }
    set (z := fval (div B A)) in *. set (rx := X1 / TA) in *. set (ry := Y1 / TA) in *. set (ri := P1 / TA) in *. clearbody z rx ry ri eps.
    destruct C as [C1 C2]. pose proof (pow2_pos (-597)). clear - C1 C2 D1 D2 BP EB YT rx0 P100 Hb PL H.
    assert (0 <= b * ri) by (apply Rmult_le_pos; lra).
    assert (T1 : eps * ry <= eps * (rx + b * ri)) by (apply Rmult_le_compat_l; lra).
    assert (T2 : eps * (b * ri) <= / 2 * (b * ri)) by (apply Rmult_le_compat_r; lra).
    apply Rabs_le. split; lra.
  Qed.
End Means.
