(** * Means of numbers, NaN left out, in binary64 *)
From Coq Require Import ZArith Reals Bool Lia Lra Psatz SpecFloat List.
From Flocq Require Import Core.
From Verif Require Import Num XR SF Res S_lib S_float M_ntp M_omega S_vert64 S_omega S_omega64 S_run64 P_float P_fl P_holds P_linear64 P_sum64 P_wet64.
Import ListNotations.
Open Scope R_scope.
#[local] Existing Instance P_float.prec_pos.
#[local] Existing Instance P_float.prec_max.

(** y is a nonnegative number, v up to the relative error k and the absolute error t; or NaN *)
Definition term (k t : R) (y : f64) (v : option R) : Prop :=
  match v with
  | Some v => nonneg64 y /\ 0 <= v <= powerRZ 2 800 /\ around (fval y) v k t
  | None => y = nan
  end.
Definition given (l : list (f64 * option R)) : list R := flat_map (fun x => match snd x with Some v => [v] | None => [] end) l.
Definition val (x : f64 * option R) : R := match snd x with Some v => v | None => 0 end.

Lemma given_sum l : Rsum (given l) = Rsum (map val l).
Proof.
  induction l as [|[y [v|]] l IH]; [reflexivity| |]; cbn [given flat_map snd map val app]; unfold Rsum in *; cbn [fold_right]; fold (given l); rewrite IH; [reflexivity|]. unfold val. cbn [snd]. ring.
Qed.
Lemma nonneg_nan (y : f64) : nonneg64 y -> isnan y = false.
Proof. intros [F _]. destruct y as [s|s| |s m e]; [reflexivity|destruct F|destruct F|reflexivity]. Qed.
Lemma given_len k t l : Forall (fun x => term k t (fst x) (snd x)) l ->
  length (filter (fun x : f64 => negb (isnan x)) (map fst l)) = length (given l) /\ (length (given l) <= length l)%nat.
Proof.
  induction 1 as [|[y v] l H _ [IH1 IH2]]; [split; reflexivity|]. cbn [fst snd] in H. cbn [map filter fst given flat_map snd length]. destruct v as [v|].
  - rewrite (nonneg_nan y (proj1 H)). cbn [negb length app]. fold (given l). rewrite IH1. split; [reflexivity|lia].
  - rewrite H. change (isnan (nan : f64)) with true. cbn [negb app]. fold (given l). split; [exact IH1|lia].
Qed.

Lemma nanmean_around k t l : 0 <= k <= 8 * u64 -> 0 <= t <= powerRZ 2 (-1040) -> INR (length l) <= powerRZ 2 31 ->
  Forall (fun x => term k t (fst x) (snd x)) l -> given l <> [] ->
  let m := nanmean (map fst l) in
  finite64 m /\ 0 <= fval m /\ 0 <= mean (given l) /\ around (fval m) (mean (given l)) (k + (2 * INR (length l) + 2) * u64) (powerRZ 2 (-1000)).
Proof.
  intros Hk Ht HN Hl Hne m. set (N := INR (length l)) in *. pose proof eta64_pos as Et. assert (U : u64 = / 9007199254740992) by reflexivity.
  assert (E31 : powerRZ 2 31 = 2147483648) by (simpl; lra). assert (N0 : 0 <= N) by apply pos_INR.
  destruct (given_len k t l Hl) as [Hc Hc2]. set (n := INR (length (given l))).
  assert (N1 : 1 <= n). { unfold n. change 1 with (INR 1). apply le_INR. destruct (given l); [congruence|simpl; lia]. }
  assert (N2 : n <= N) by (apply le_INR; exact Hc2).
  set (ys := map (fun x : f64 => if isnan x then zero else x) (map fst l)).
  assert (T1040 : 2147483648 * powerRZ 2 (-1040) <= powerRZ 2 (-1009)) by (rewrite <- E31, pow2_mul; apply pow2_le; lia).
  assert (TE : 2147483648 * eta64 <= powerRZ 2 (-1040)). { rewrite <- E31. unfold eta64. rewrite pow2_mul. apply pow2_le. lia. }
  assert (T1009 : powerRZ 2 (-1009) * 100 <= powerRZ 2 (-1000)).
  { apply Rle_trans with (powerRZ 2 (-1009) * powerRZ 2 9); [apply Rmult_le_compat_l; [left; apply pow2_pos|simpl; lra]|]. rewrite pow2_mul. apply pow2_le. lia. }
  assert (Tord : powerRZ 2 (-1040) <= powerRZ 2 (-1009)) by (apply pow2_le; lia). pose proof (pow2_pos (-1040)) as P1040. pose proof (pow2_pos (-1009)) as P1009.
  assert (B801 : powerRZ 2 800 * 2147483648 * 4 <= powerRZ 2 900).
  { replace (powerRZ 2 800 * 2147483648 * 4) with (powerRZ 2 800 * (2147483648 * 4)) by ring. apply Rle_trans with (powerRZ 2 800 * powerRZ 2 40); [apply Rmult_le_compat_l; [left; apply pow2_pos|simpl; lra]|]. rewrite pow2_mul. apply pow2_le. lia. }
  assert (P800 : 1 <= powerRZ 2 800) by (change 1 with (powerRZ 2 0); apply pow2_le; lia).
  assert (t1 : t <= 1). { apply Rle_trans with (powerRZ 2 (-1040)); [apply Ht|]. change 1 with (powerRZ 2 0). apply pow2_le. lia. }
  set (g := fun x : f64 * option R => fval (if isnan (fst x) then (zero : f64) else fst x)).
  assert (Eys : map fval ys = map g l) by (unfold ys, g; rewrite !map_map; reflexivity).
  assert (HF : Forall nonneg64 ys).
  { unfold ys. apply Forall_forall. intros z Hz. apply in_map_iff in Hz. destruct Hz as (y & <- & Hy). apply in_map_iff in Hy. destruct Hy as ([y' v] & E & Hy). cbn [fst] in E. subst y'.
    pose proof (proj1 (Forall_forall _ _) Hl _ Hy) as T. cbn [fst snd] in T. destruct v as [v|].
    - rewrite (nonneg_nan y (proj1 T)). apply T.
    - rewrite T. change (isnan (nan : f64)) with true. cbv iota. split; [exact I|]. simpl. lra. }
  assert (HA : forall x, In x l -> around (g x) (val x) k t /\ 0 <= val x <= powerRZ 2 800).
  { intros [y v] Hy. pose proof (proj1 (Forall_forall _ _) Hl _ Hy) as T. cbn [fst snd] in T. unfold g, val. cbn [fst snd]. destruct v as [v|].
    - rewrite (nonneg_nan y (proj1 T)). split; [apply T|apply T].
    - rewrite T. change (isnan (nan : f64)) with true. cbv iota. change (fval (zero : f64)) with (fval (S754_zero false)). unfold around. simpl fval. split; [lra|]. lra. }
  assert (A1 : around (Rsum (map fval ys)) (Rsum (given l)) k (N * t)).
  { rewrite Eys, given_sum. apply around_sum. intros a Ha. apply HA, Ha. }
  assert (S0 : 0 <= Rsum (given l)). { rewrite given_sum. apply Rsum_pos_map. intros a Ha. apply HA, Ha. }
  assert (SB : Rsum (given l) <= N * powerRZ 2 800).
  { rewrite given_sum. unfold N. clear - HA. induction l as [|a l IH]; [simpl; lra|]. cbn [map length]. rewrite S_INR. unfold Rsum. cbn [fold_right]. fold (Rsum (map val l)).
    assert (Ha := proj2 (HA a (or_introl eq_refl))). assert (H := IH (fun x Hx => HA x (or_intror Hx))). lra. }
  set (G := Rsum (given l)) in *. set (Y := Rsum (map fval ys)) in *.
  assert (Nt : 0 <= N * t <= powerRZ 2 (-1009)).
  { split; [apply Rmult_le_pos; lra|]. apply Rle_trans with (2147483648 * powerRZ 2 (-1040)); [apply Rmult_le_compat; lra|exact T1040]. }
  assert (YB : Y <= powerRZ 2 900).
  { destruct A1 as [_ A1]. assert (N * powerRZ 2 800 <= 2147483648 * powerRZ 2 800) by (apply Rmult_le_compat_r; lra).
    assert (powerRZ 2 (-1009) <= 1) by (change 1 with (powerRZ 2 0); apply pow2_le; lia). assert (G * k <= G * 1) by (apply Rmult_le_compat_l; [exact S0|lra]). lra. }
  assert (Ly : length ys = length l) by (unfold ys; rewrite !map_length; reflexivity).
  destruct (summed_ok ys (fsum ys) (fsum_summed ys) HF) as (Fx & Hx & A2 & _); [rewrite Ly; fold N; apply Rle_trans with (powerRZ 2 31); [exact HN|apply pow2_le; lia]|exact YB|].
  rewrite Ly in A2. fold N in A2. fold Y in A2.
  assert (Nu : 0 <= 2 * N * u64 <= / 1000000). { split; [apply Rmult_le_pos; [lra|rewrite U; lra]|]. rewrite U. lra. }
  assert (Ne : 0 <= 2 * N * eta64 <= 2 * powerRZ 2 (-1040)).
  { split; [apply Rmult_le_pos; lra|]. assert (N * eta64 <= 2147483648 * eta64) by (apply Rmult_le_compat_r; lra). lra. }
  assert (k0 : 0 <= k <= 1) by lra.
  assert (Nu' : 0 <= 2 * N * u64 <= 1) by lra. assert (Uu : 0 <= u64 <= 1) by (rewrite U; lra).
  assert (A3 := around_trans _ _ _ _ _ _ _ S0 k0 (proj1 Nt) Nu' A1 A2).
  set (K := k + 2 * N * u64 + k * (2 * N * u64)) in *. set (T := 2 * (N * t) + 2 * N * eta64) in *.
  assert (kN : 0 <= k * (2 * N * u64) <= k * / 1000000) by (split; [apply Rmult_le_pos; lra|apply Rmult_le_compat_l; lra]).
  assert (HK : 0 <= K <= k + 2 * N * u64 + k * / 1000000) by (unfold K; lra).
  assert (HT : 0 <= T <= 4 * powerRZ 2 (-1009)) by (unfold T; lra).
  assert (In1 : 0 < / n) by (apply Rinv_0_lt_compat; lra). assert (In2 : / n <= 1) by (rewrite <- Rinv_1; apply Rinv_le_contravar; lra).
  assert (A4 : around (fval (fsum ys) / n) (G / n) K T).
  { destruct A3 as [A3 A3']. unfold around, Rdiv.
    assert (X1 : (G * (1 - K) - T) * / n <= fval (fsum ys) * / n) by (apply Rmult_le_compat_r; lra).
    assert (X2 : fval (fsum ys) * / n <= (G * (1 + K) + T) * / n) by (apply Rmult_le_compat_r; lra).
    assert (T * / n <= T * 1) by (apply Rmult_le_compat_l; lra). split; lra. }
  destruct (of_nat_exact (length (given l))) as [Fn Vn]; [fold n; apply Rle_trans with (powerRZ 2 31); [lra|apply pow2_le; lia]|]. fold n in Vn.
  assert (Em : m = div (fsum ys) (of_nat (length (given l)) : f64)).
  { unfold m, nanmean. rewrite Hc. reflexivity. }
  assert (M0 : 0 <= G / n) by (apply Rmult_le_pos; lra).
  assert (GB : G / n <= powerRZ 2 900).
  { unfold Rdiv. apply Rle_trans with (G * 1); [apply Rmult_le_compat_l; lra|]. assert (N * powerRZ 2 800 <= 2147483648 * powerRZ 2 800) by (apply Rmult_le_compat_r; lra). lra. }
  assert (Big : powerRZ 2 900 * 4 <= big64).
  { apply Rle_trans with (powerRZ 2 900 * powerRZ 2 2); [apply Rmult_le_compat_l; [left; apply pow2_pos|simpl; lra]|]. rewrite pow2_mul. apply pow2_le. lia. }
  assert (P900 : 1 <= powerRZ 2 900) by (change 1 with (powerRZ 2 0); apply pow2_le; lia).
  assert (P1009' : powerRZ 2 (-1009) <= / 100).
  { apply Rle_trans with (powerRZ 2 (-7)); [apply pow2_le; lia|]. simpl. lra. }
  assert (XB : 0 <= fval (fsum ys) / n <= big64).
  { split; [apply Rmult_le_pos; lra|]. destruct A4 as [_ A4]. assert (G / n * K <= G / n * 1) by (apply Rmult_le_compat_l; [exact M0|lra]). lra. }
  destruct (div_rounds (fsum ys) (of_nat (length (given l)) : f64) Fx Fn) as (Fm & Vm & A5 & _); [rewrite Vn; lra|rewrite Vn; exact XB|].
  rewrite Vn in A5. rewrite <- Em in Fm, Vm, A5.
  split; [exact Fm|]. split; [exact Vm|]. unfold mean. fold G n. split; [exact M0|].
  assert (K1 : 0 <= K <= 1) by lra.
  assert (A6 := around_trans _ _ _ _ _ _ _ M0 K1 (proj1 HT) Uu A4 A5).
  assert (Ku : K * u64 <= / 1000 * u64) by (apply Rmult_le_compat_r; [rewrite U; lra|lra]).
  assert (eta64 <= powerRZ 2 (-1009)) by lra.
  refine (around_mono _ _ _ _ _ _ M0 A6 _ _); [|lra]. lra.
Qed.

Lemma around_within (x : f64) v k t : 0 <= v -> finite64 x -> around (fval x) v k t -> S_float.within x v (k * v + t).
Proof. intros Hv F [H1 H2]. split; [exact F|]. apply Rabs_le. lra. Qed.

Lemma nanmean_none (l : list f64) : Forall (fun y => y = nan) l -> nanmean l = nan.
Proof.
  intros H. unfold nanmean.
  assert (E : filter (fun x : f64 => negb (isnan x)) l = []) by (induction H as [|y l -> _ IH]; [reflexivity|]; cbn [filter]; change (isnan (nan : f64)) with true; exact IH).
  rewrite E. assert (S : nansum l = (zero : f64)).
  { unfold nansum, nansum_by, fsum. induction H as [|y l -> _ IH]; [reflexivity|]. cbn [map fold_left]. change (isnan (nan : f64)) with true. cbv iota.
    change (add (lit 0 0 : f64) zero) with (lit 0 0 : f64). apply IH. cbn [filter] in E. change (isnan (nan : f64)) with true in E. exact E. }
  rewrite S. reflexivity.
Qed.

(** ** the mean of magnitudes *)
Lemma mav_ok (l : list f64) : INR (length l) <= powerRZ 2 31 -> (forall y, In y l -> y = nan \/ finite64 y /\ Rabs (fval y) <= powerRZ 2 800) ->
  numbers64 l <> [] -> S_float.within (nanmean (map fabs l)) (mean (map Rabs (numbers64 l))) (mean_error (length l) (mean (map Rabs (numbers64 l)))).
Proof.
  intros HN Hl Hne. set (it := map (fun y : f64 => (fabs y, if isfinite y then Some (Rabs (fval y)) else None)) l).
  assert (Ef : map fst it = map fabs l) by (unfold it; rewrite map_map; reflexivity).
  assert (Eg : given it = map Rabs (numbers64 l)).
  { unfold it, given, numbers64. clear. induction l as [|y l IH]; [reflexivity|]. cbn [map flat_map snd filter]. rewrite IH. destruct (isfinite y); reflexivity. }
  assert (HT : Forall (fun x => term 0 0 (fst x) (snd x)) it).
  { unfold it. apply Forall_forall. intros x Hx. apply in_map_iff in Hx. destruct Hx as (y & <- & Hy). cbn [fst snd]. destruct (Hl y Hy) as [->|[F B]].
    - reflexivity.
    - replace (isfinite y) with true by (symmetry; exact (finite_isfinite y F)). cbn [term]. destruct (SFabs_exact y F) as [Fa Ea]. change (SFabs y) with (fabs y) in *.
      split; [split; [exact Fa|rewrite Ea; apply Rabs_pos]|]. split; [split; [apply Rabs_pos|exact B]|]. rewrite Ea. unfold around. lra. }
  assert (Li : length it = length l) by (unfold it; apply map_length).
  assert (U : 0 < u64) by (unfold u64; lra).
  destruct (nanmean_around 0 0 it) as (F & V & M & A); [lra|split; [lra|left; apply pow2_pos]|rewrite Li; exact HN|exact HT|rewrite Eg; intros E; apply map_eq_nil in E; exact (Hne E)|].
  rewrite Ef in *. rewrite Eg in *. rewrite Li in A. unfold mean_error.
  assert (E53 : powerRZ 2 (-53) = u64) by (unfold u64; simpl; lra). rewrite E53.
  set (v := mean (map Rabs (numbers64 l))) in *. apply around_within; [exact M|exact F|].
  refine (around_mono _ _ _ _ _ _ M A _ _); lra.
Qed.

(** ** the root of the mean of squares of differences *)
Lemma square_ok (p q : f64) : finite64 p -> finite64 q -> 0 <= fval p <= 10000 -> 0 <= fval q <= 10000 ->
  term (5 * u64) (powerRZ 2 (-1040)) (mul (sub q p) (sub q p)) (Some ((fval q - fval p) * (fval q - fval p))).
Proof.
  intros Fp Fq Hp Hq. set (D := fval q - fval p). assert (HD : Rabs D <= 10000) by (unfold D; apply Rabs_le; lra).
  pose proof eta64_pos as Et. assert (U : u64 = / 9007199254740992) by reflexivity.
  assert (B4 : 1000000000 <= big64). { apply Rle_trans with (powerRZ 2 30); [simpl; lra|]. apply pow2_le. lia. }
  assert (Bx : Rabs (rnd D) < bpow radix2 1024) by (apply rnd_small; lra).
  destruct (sub_val q p Fq Fp Bx) as [Fs Es]. change (sf_sub q p) with (sub q p) in *. fold D in Es. set (x := sub q p) in *.
  pose proof (rnd_err D) as Er. rewrite <- Es in Er. apply Rabs_le_inv in Er.
  assert (Ee : 20003 * eta64 <= powerRZ 2 (-1041)).
  { apply Rle_trans with (powerRZ 2 15 * eta64); [apply Rmult_le_compat_r; [lra|simpl; lra]|]. unfold eta64. rewrite pow2_mul. apply pow2_le. lia. }
  assert (E2 : powerRZ 2 (-1041) * 2 = powerRZ 2 (-1040)). { replace 2 with (powerRZ 2 1) at 2 by (simpl; lra). rewrite pow2_mul. reflexivity. }
  assert (E1 : eta64 <= 1) by (unfold eta64; change 1 with (powerRZ 2 0); apply pow2_le; lia).
  set (d := fval x - D) in *.
  assert (Hd : Rabs d <= u64 * Rabs D + eta64) by (apply Rabs_le; lra). pose proof (Rabs_pos D) as AD. pose proof (Rabs_pos d) as Ad.
  assert (Hx : Rabs (fval x * fval x - D * D) <= 3 * u64 * (D * D) + 20002 * eta64).
  { replace (fval x * fval x - D * D) with (2 * D * d + d * d) by (unfold d; ring).
    apply Rle_trans with (2 * Rabs D * Rabs d + Rabs d * Rabs d).
    { eapply Rle_trans; [apply Rabs_triang|]. rewrite !Rabs_mult, (Rabs_pos_eq 2) by lra. lra. }
    assert (DD : D * D = Rabs D * Rabs D) by (rewrite <- Rabs_mult, Rabs_pos_eq; [reflexivity|nra]). rewrite DD. set (a := Rabs D) in *. set (b := Rabs d) in *.
    assert (W1 : a * b <= a * (u64 * a + eta64)) by (apply Rmult_le_compat_l; lra).
    assert (W2 : b * b <= (u64 * a + eta64) * (u64 * a + eta64)) by (apply Rmult_le_compat; lra).
    assert (W3 : a * eta64 <= 10000 * eta64) by (apply Rmult_le_compat_r; lra).
    assert (W4 : u64 * a * (u64 * a) <= / 1000 * (u64 * (a * a))). { replace (u64 * a * (u64 * a)) with (u64 * (u64 * (a * a))) by ring. apply Rmult_le_compat_r; [apply Rmult_le_pos; nra|rewrite U; lra]. }
    assert (W5 : u64 * a * eta64 <= / 1000 * eta64) by (apply Rmult_le_compat_r; [lra|rewrite U; lra]).
    assert (W6 : eta64 * eta64 <= eta64) by nra.
    assert (W7 : 0 <= u64 * (a * a)) by (apply Rmult_le_pos; [rewrite U; lra|nra]). nra. }
  apply Rabs_le_inv in Hx.
  assert (D2 : 0 <= D * D <= 100000000). { split; [nra|]. replace (D * D) with (Rabs D * Rabs D) by (rewrite <- Rabs_mult; apply Rabs_pos_eq; nra). apply Rle_trans with (10000 * 10000); [apply Rmult_le_compat; lra|lra]. }
  assert (P20 : 20003 * eta64 <= 1). { apply Rle_trans with (powerRZ 2 (-1041)); [exact Ee|]. change 1 with (powerRZ 2 0). apply pow2_le. lia. }
  assert (U3 : 3 * u64 * (D * D) <= 1) by (rewrite U; lra).
  assert (U0 : 0 <= u64 * (D * D)) by (apply Rmult_le_pos; [rewrite U; lra|apply D2]).
  destruct (mul_rounds x x Fs Fs) as (F & V & [A1 A2] & _); [split; [nra|lra]|].
  cbn [term]. split; [exact (conj F V)|]. split; [split; [apply D2|]|].
  { apply Rle_trans with (powerRZ 2 30); [simpl; lra|apply pow2_le; lia]. }
  set (y := fval (mul x x)) in *. set (x2 := fval x * fval x) in *. clearbody y x2. set (w := D * D) in *.
  assert (uw : x2 * u64 <= (w + 3 * u64 * w + 20002 * eta64) * u64) by (apply Rmult_le_compat_r; [rewrite U; lra|lra]).
  assert (uw2 : u64 * u64 * w <= / 1000 * (u64 * w)). { replace (u64 * u64 * w) with (u64 * (u64 * w)) by ring. apply Rmult_le_compat_r; [exact U0|rewrite U; lra]. }
  assert (ue : 20002 * eta64 * u64 <= / 1000 * eta64). { replace (20002 * eta64 * u64) with (20002 * u64 * eta64) by ring. apply Rmult_le_compat_r; [lra|rewrite U; lra]. }
  unfold around. split; nra.
Qed.

Lemma sub_nan_any (p q : f64) : p = nan \/ q = nan -> mul (sub q p) (sub q p) = (nan : f64).
Proof. intros [-> | ->]; [destruct q; reflexivity|reflexivity]. Qed.

Lemma rms_ok (x y : list bottle64) : INR (length x) <= powerRZ 2 31 -> length y = length x ->
  (forall b, In b (x ++ y) -> snd b = nan \/ finite64 (snd b) /\ 0 <= fval (snd b) <= 10000) -> changes64 x y <> [] ->
  S_float.within (fsqrt (nanmean (map (fun x : f64 => mul x x) (p_change x y)))) (sqrt (mean (map (fun x => x * x) (changes64 x y))))
    (rms_error (length x) (sqrt (mean (map (fun x => x * x) (changes64 x y))))).
Proof.
  intros HN Ly Hb Hne.
  set (it := map (fun ab : bottle64 * bottle64 => (mul (sub (snd (snd ab)) (snd (fst ab))) (sub (snd (snd ab)) (snd (fst ab))),
    if isfinite (snd (fst ab)) && isfinite (snd (snd ab)) then Some ((fval (snd (snd ab)) - fval (snd (fst ab))) * (fval (snd (snd ab)) - fval (snd (fst ab)))) else None)) (combine x y)).
  assert (Ef : map fst it = map (fun x : f64 => mul x x) (p_change x y)).
  { unfold it, p_change. rewrite !map_map. clear. revert y. induction x as [|a x IH]; intros [|b y]; try reflexivity. cbn [combine map fst snd]. f_equal. apply IH. }
  assert (Eg : given it = map (fun x => x * x) (changes64 x y)).
  { unfold it, given, changes64. clear. induction (combine x y) as [|[a b] l IH]; [reflexivity|]. cbn [map flat_map fst snd]. rewrite IH.
    destruct (isfinite (snd a) && isfinite (snd b)); reflexivity. }
  assert (HT : Forall (fun z => term (5 * u64) (powerRZ 2 (-1040)) (fst z) (snd z)) it).
  { unfold it. apply Forall_forall. intros z Hz. apply in_map_iff in Hz. destruct Hz as ([a b] & <- & Hab). cbn [fst snd].
    pose proof (Hb a (in_or_app _ _ _ (or_introl (in_combine_l _ _ _ _ Hab)))) as Ha. pose proof (Hb b (in_or_app _ _ _ (or_intror (in_combine_r _ _ _ _ Hab)))) as Hb'.
    destruct Ha as [Ha|[Fa Va]]; [rewrite Ha; change (isfinite (nan : f64)) with false; cbn [andb term]; apply sub_nan_any; left; reflexivity|].
    destruct Hb' as [Hb'|[Fb Vb]]; [rewrite Hb'; change (isfinite (nan : f64)) with false; rewrite andb_false_r; cbn [term]; apply sub_nan_any; right; reflexivity|].
    replace (isfinite (snd a)) with true by (symmetry; exact (finite_isfinite _ Fa)). replace (isfinite (snd b)) with true by (symmetry; exact (finite_isfinite _ Fb)).
    cbn [andb]. apply square_ok; assumption. }
  assert (Li : length it = length x) by (unfold it; rewrite map_length, combine_length, Ly; lia).
  assert (U : u64 = / 9007199254740992) by reflexivity.
  destruct (nanmean_around (5 * u64) (powerRZ 2 (-1040)) it) as (F & V & M & A); [rewrite U; lra|split; [left; apply pow2_pos|lra]|rewrite Li; exact HN|exact HT| |].
  { rewrite Eg. intros E. apply map_eq_nil in E. exact (Hne E). }
  rewrite Ef in *. rewrite Eg in *. rewrite Li in A. set (m := nanmean _) in *. set (v := mean _) in *.
  assert (E31 : powerRZ 2 31 = 2147483648) by (simpl; lra). pose proof (pos_INR (length x)) as N0.
  assert (Nu : 0 <= (2 * INR (length x) + 2) * u64 <= / 100000) by (rewrite U; lra).
  assert (A1 : around (sqrt (fval m)) (sqrt v) (5 * u64 + (2 * INR (length x) + 2) * u64) (sqrt (powerRZ 2 (-1000)))).
  { apply around_sqrt; [exact M|exact V|rewrite U in *; lra|left; apply pow2_pos|exact A]. }
  assert (Es : sqrt (powerRZ 2 (-1000)) = powerRZ 2 (-500)).
  { replace (powerRZ 2 (-1000)) with (powerRZ 2 (-500) * powerRZ 2 (-500)) by (rewrite pow2_mul; reflexivity). apply sqrt_square. left. apply pow2_pos. }
  rewrite Es in A1. destruct (sf_sqrt_near m F V) as [F' H']. change (sf_sqrt m) with (fsqrt m : f64) in *.
  pose proof (sqrt_pos (fval m)) as S1. pose proof (sqrt_pos v) as S2. pose proof eta64_pos as Et.
  assert (A2 : around (fval (fsqrt m : f64)) (sqrt (fval m)) u64 eta64).
  { rewrite (Rabs_pos_eq _ S1) in H'. apply Rabs_le_inv in H'. unfold around. lra. }
  assert (k1 : 0 <= 5 * u64 + (2 * INR (length x) + 2) * u64 <= 1) by (rewrite U in *; lra). pose proof (pow2_pos (-500)) as P5.
  assert (Uu : 0 <= u64 <= 1) by (rewrite U; lra).
  assert (A3 := around_trans _ _ _ _ _ _ _ S2 k1 (Rlt_le _ _ P5) Uu A1 A2).
  unfold rms_error. assert (E53 : powerRZ 2 (-53) = u64) by (unfold u64; simpl; lra). rewrite E53.
  apply around_within; [exact S2|exact F'|]. refine (around_mono _ _ _ _ _ _ S2 A3 _ _).
  - assert (Q : (5 * u64 + (2 * INR (length x) + 2) * u64) * u64 <= 1 * u64) by (apply Rmult_le_compat_r; [rewrite U; lra|apply k1]). rewrite U in *. lra.
  - assert (eta64 <= powerRZ 2 (-500)) by (unfold eta64; apply pow2_le; lia).
    assert (powerRZ 2 (-500) * 4 <= powerRZ 2 (-490)); [|lra].
    apply Rle_trans with (powerRZ 2 (-500) * powerRZ 2 10); [apply Rmult_le_compat_l; [lra|simpl; lra]|]. rewrite pow2_mul. apply pow2_le. lia.
Qed.
