(** * Proofs about linear.py and pchip.py on real data *)
From Coq Require Import ZArith Bool Reals Lra Lia List.
From Coquelicot Require Import Coquelicot.
From Verif Require Import Num XR Res Arr ArrLemmas XRlemmas M_ppinterp S_interp S_poly P_ppinterp P_pval.
Import ListNotations.
Local Open Scope R_scope.

(** ** Slopes *)
Lemma xr_sign r : sign (Fin r) = Fin (if Rlt_dec 0 r then 1 else if Rlt_dec r 0 then -1 else 0).
Proof.
  unfold sign, zero, one. xsimp. unfold Rltb.
  destruct (Rlt_dec 0 r); [reflexivity|]. destruct (Rlt_dec r 0); reflexivity.
Qed.

Lemma sign_eqb a b : xr_eqb (sign (Fin a)) (sign (Fin b)) = true <->
  (0 < a * b) \/ (a = 0 /\ b = 0).
Proof.
  rewrite !xr_sign. xsimp.
  destruct (Rlt_dec 0 a); destruct (Rlt_dec 0 b);
  try destruct (Rlt_dec a 0); try destruct (Rlt_dec b 0);
  (match goal with |- context [Reqb ?x ?y] => destruct (Reqb_spec x y) end);
  split; intros H; try reflexivity; try lra; try discriminate; try nra;
  try (left; nra).
Qed.

Lemma sign_mul_pos a b : (lit 0 0 <? sign (Fin a) * sign (Fin b))%num = true <-> 0 < a * b.
Proof.
  rewrite !xr_sign. xsimp.
  destruct (Rlt_dec 0 a); destruct (Rlt_dec 0 b);
  try destruct (Rlt_dec a 0); try destruct (Rlt_dec b 0);
  (match goal with |- context [Rltb ?x ?y] => destruct (Rltb_spec x y) end);
  split; intros H; try reflexivity; try lra; try discriminate; try nra.
Qed.

Lemma bool_iff (b : bool) (P : Prop) : (b = true <-> P) -> {b = true /\ P} + {b = false /\ ~ P}.
Proof. destruct b; intros H; [left|right]; intuition congruence. Qed.

Lemma pchip_end_real h1 h2 δ1 δ2 : 0 < h1 -> 0 < h2 ->
  pchip_end (Fin h1) (Fin h2) (Fin δ1) (Fin δ2) = Ok (Fin (slope_end h1 h2 δ1 δ2)).
Proof.
  intros H1 H2. unfold pchip_end. xsimp. rewrite sdiv_fin by lra. cbn [bind].
  f_equal. unfold slope_end. set (q := ((2 * h1 + h2) * δ1 - h1 * δ2) / (h1 + h2)).
  destruct (bool_iff _ _ (sign_eqb q δ1)) as [[-> H]|[-> H]]; cbn [negb].
  - destruct (bool_iff _ _ (sign_eqb δ1 δ2)) as [[-> H']|[-> H']]; cbn [negb andb].
    + destruct (Rle_dec (q * δ1) 0).
      * destruct H as [H|[H _]]; [lra|]. rewrite H. reflexivity.
      * destruct (Rle_dec (δ1 * δ2) 0); [|reflexivity].
        destruct H' as [H'|[H' _]]; [lra|]. rewrite H' in n. lra.
    + xsimp. replace (Rabs (3 * δ1)) with (3 * Rabs δ1)
        by (rewrite Rabs_mult, (Rabs_right 3) by lra; reflexivity).
      unfold Rltb. destruct (Rle_dec (q * δ1) 0) as [L|L].
      * destruct H as [H|[Ha Hb]]; [lra|]. rewrite Ha, Hb, Rabs_R0.
        destruct (Rlt_dec (3 * 0) 0); [lra|]. reflexivity.
      * destruct (Rle_dec (δ1 * δ2) 0) as [L'|L'].
        -- destruct (Rlt_dec (3 * Rabs δ1) (Rabs q)); reflexivity.
        -- exfalso. apply H'. left. lra.
  - destruct (Rle_dec (q * δ1) 0); [reflexivity|]. exfalso. apply H. left. lra.
Qed.

Lemma pchip_mid_real h0 h1 δ0 δ1 : 0 < h0 -> 0 < h1 ->
  pchip_mid (Fin h0) (Fin h1) (Fin δ0) (Fin δ1) = Ok (Fin (slope_mid h0 h1 δ0 δ1)).
Proof.
  intros H0 H1. unfold pchip_mid, slope_mid.
  destruct (bool_iff _ _ (sign_mul_pos δ0 δ1)) as [[-> H]|[-> H]].
  - destruct (Rlt_dec 0 (δ0 * δ1)); [|lra].
    assert (δ0 <> 0) by (intros E; rewrite E in *; lra).
    assert (δ1 <> 0) by (intros E; rewrite E in *; lra).
    xsimp. rewrite !sdiv_fin by assumption. xsimp. rewrite !sdiv_fin.
    + do 2 f_equal. f_equal. ring.
    + intros E.
      assert (0 < ((h0 + 2 * h1) / δ0 + (2 * h0 + h1) / δ1) * (δ0 * δ1 * δ1)).
      { replace (((h0 + 2 * h1) / δ0 + (2 * h0 + h1) / δ1) * (δ0 * δ1 * δ1))
          with ((h0 + 2 * h1) * (δ1 * δ1) + (2 * h0 + h1) * (δ0 * δ1))
          by (field; auto).
        assert (0 <= δ1 * δ1) by (apply Rle_0_sqr). nra. }
      rewrite E in *. lra.
  - destruct (Rlt_dec 0 (δ0 * δ1)); [lra|]. xsimp. reflexivity.
Qed.

(** the slopes are between 0 and 3 times the adjacent secants *)
Definition lim3 (d δ : R) : Prop := exists a, 0 <= a <= 3 /\ d = a * δ.

Lemma lim3_intro d δ : 0 <= d * δ -> d * d <= 9 * (δ * δ) -> lim3 d δ.
Proof.
  intros H1 H2. destruct (Req_dec δ 0) as [->|Hd].
  - exists 0. split; [lra|]. nra.
  - exists (d / δ). split; [|field; assumption].
    assert (Hp : 0 < δ * δ) by nra.
    assert (E : d / δ = (d * δ) / (δ * δ)) by (field; assumption).
    rewrite E. split.
    + apply Rmult_le_pos; [lra|]. left. apply Rinv_0_lt_compat. lra.
    + apply Rmult_le_reg_r with (δ * δ); [lra|].
      replace (d * δ / (δ * δ) * (δ * δ)) with (d * δ) by (field; assumption).
      destruct (Rle_dec 0 δ).
      * assert (0 <= d) by nra. assert (d <= 3 * δ) by nra. nra.
      * assert (d <= 0) by nra. assert (3 * δ <= d) by nra. nra.
Qed.

Lemma slope_end_lim h1 h2 δ1 δ2 : 0 < h1 -> 0 < h2 -> lim3 (slope_end h1 h2 δ1 δ2) δ1.
Proof.
  intros H1 H2. unfold slope_end.
  set (q := ((2 * h1 + h2) * δ1 - h1 * δ2) / (h1 + h2)).
  assert (Eq : q * (h1 + h2) = (2 * h1 + h2) * δ1 - h1 * δ2) by (unfold q; field; lra).
  destruct (Rle_dec (q * δ1) 0) as [L|L]; [exists 0; split; lra|].
  destruct (Rle_dec (δ1 * δ2) 0) as [L'|L'].
  - destruct (Rlt_dec (3 * Rabs δ1) (Rabs q)) as [A|A].
    + exists 3. split; lra.
    + apply lim3_intro; [lra|].
      assert (Rabs q <= Rabs (3 * δ1)) by (rewrite Rabs_mult, (Rabs_right 3) by lra; lra).
      apply Rsqr_le_abs_1 in H. unfold Rsqr in H. lra.
  - apply lim3_intro; [lra|].
    destruct (Rlt_dec 0 δ1).
    + assert (0 < δ2) by nra. assert (0 < q) by nra.
      assert (q <= 2 * δ1).
      { apply Rmult_le_reg_r with (h1 + h2); [lra|]. rewrite Eq. nra. }
      nra.
    + assert (δ1 < 0).
      { destruct (Req_dec δ1 0) as [E|E]; [rewrite E in L'; lra|lra]. }
      assert (δ2 < 0) by nra. assert (q < 0) by nra.
      assert (2 * δ1 <= q).
      { apply Rmult_le_reg_r with (h1 + h2); [lra|]. rewrite Eq. nra. }
      nra.
Qed.

Lemma slope_mid_lim h0 h1 δ0 δ1 : 0 < h0 -> 0 < h1 ->
  lim3 (slope_mid h0 h1 δ0 δ1) δ0 /\ lim3 (slope_mid h0 h1 δ0 δ1) δ1.
Proof.
  intros H0 H1. unfold slope_mid.
  destruct (Rlt_dec 0 (δ0 * δ1)) as [H|H]; [|split; exists 0; split; lra].
  assert (δ0 <> 0) by (intros E; rewrite E in *; lra).
  assert (δ1 <> 0) by (intros E; rewrite E in *; lra).
  set (D := (h0 + 2 * h1) * δ1 + (2 * h0 + h1) * δ0).
  assert (HD0 : 0 < D * δ0) by (unfold D; nra).
  assert (HD1 : 0 < D * δ1) by (unfold D; nra).
  assert (D <> 0) by (intros E; rewrite E in *; lra).
  replace (3 * (h0 + h1) / ((h0 + 2 * h1) / δ0 + (2 * h0 + h1) / δ1))
    with (3 * (h0 + h1) * δ0 * δ1 / D).
  2:{ unfold D. field. repeat split; try assumption. }
  split.
  - exists (3 * (h0 + h1) * δ1 / D). split; [|field; assumption].
    replace (3 * (h0 + h1) * δ1 / D) with (3 * (h0 + h1) * (δ0 * δ1) / (D * δ0)) by (field; auto).
    split.
    + apply Rmult_le_pos; [nra|]. left; apply Rinv_0_lt_compat; assumption.
    + apply Rmult_le_reg_r with (D * δ0); [assumption|].
      replace (3 * (h0 + h1) * (δ0 * δ1) / (D * δ0) * (D * δ0)) with (3 * (h0 + h1) * (δ0 * δ1)) by (field; auto).
      unfold D. assert (0 <= δ0 * δ0) by nra. nra.
  - exists (3 * (h0 + h1) * δ0 / D). split; [|field; assumption].
    replace (3 * (h0 + h1) * δ0 / D) with (3 * (h0 + h1) * (δ0 * δ1) / (D * δ1)) by (field; auto).
    split.
    + apply Rmult_le_pos; [nra|]. left; apply Rinv_0_lt_compat; assumption.
    + apply Rmult_le_reg_r with (D * δ1); [assumption|].
      replace (3 * (h0 + h1) * (δ0 * δ1) / (D * δ1) * (D * δ1)) with (3 * (h0 + h1) * (δ0 * δ1)) by (field; auto).
      unfold D. assert (0 <= δ1 * δ1) by nra. nra.
Qed.

(** ** Cubic pieces *)
Definition cubic (h δ d0 d1 y0 : R) : list R :=
  [ ((d1 - δ) / h - (δ - d0) / h) / h; 2 * ((δ - d0) / h) - (d1 - δ) / h; d0; y0 ].

Lemma cubic_val h δ d0 d1 y0 s : h <> 0 ->
  pval s (cubic h δ d0 d1 y0) 0
  = y0 + d0 * s + (3 * δ - 2 * d0 - d1) * (s * s) / h + (d0 + d1 - 2 * δ) * (s * s * s) / (h * h).
Proof.
  intros H. rewrite pval_dpoly, dpoly_0. unfold cubic. cbn [poly length pow]. field. assumption.
Qed.

Lemma cubic_d h δ d0 d1 y0 s : h <> 0 ->
  pval s (cubic h δ d0 d1 y0) 1
  = d0 + 2 * (3 * δ - 2 * d0 - d1) * s / h + 3 * (d0 + d1 - 2 * δ) * (s * s) / (h * h).
Proof.
  intros H. rewrite pval_dpoly. unfold cubic. cbn [dpoly length Nat.leb Nat.sub pow].
  unfold ffac. simpl. field. assumption.
Qed.

Lemma cubic_mono_dir h δ d0 d1 y0 s : 0 < h -> 0 <= s <= h -> lim3 d0 δ -> lim3 d1 δ ->
  0 <= δ * pval s (cubic h δ d0 d1 y0) 1.
Proof.
  intros Hh Hs (a & Ha & ->) (b & Hb & ->). rewrite cubic_d by lra.
  set (u := s / h).
  assert (Hu : 0 <= u <= 1).
  { unfold u. split.
    - apply Rmult_le_pos; [lra|]. left; apply Rinv_0_lt_compat; lra.
    - apply Rmult_le_reg_r with h; [lra|]. unfold Rdiv. rewrite Rmult_assoc, Rinv_l by lra. lra. }
  replace (δ * (a * δ + 2 * (3 * δ - 2 * (a * δ) - b * δ) * s / h + 3 * (a * δ + b * δ - 2 * δ) * (s * s) / (h * h)))
    with (δ * δ * (a * ((1 - u) * (1 - 3 * u)) + b * (u * (3 * u - 2)) + 6 * u * (1 - u)))
    by (unfold u; field; lra).
  apply Rmult_le_pos; [apply Rle_0_sqr|].
  (* bilinear: check the corners of [0,3]^2 *)
  assert (0 <= u * (1 - u)) by nra.
  assert (0 <= (1 - u) * (1 - u)) by nra.
  assert (0 <= u * u) by nra.
  assert (E : 9 * (a * ((1 - u) * (1 - 3 * u)) + b * (u * (3 * u - 2)) + 6 * u * (1 - u))
    = (3 - a) * (3 - b) * (6 * (u * (1 - u))) + a * (3 - b) * (3 * ((1 - u) * (1 - u)))
      + (3 - a) * b * (3 * (u * u)) + a * b * (3 * ((1 - 2 * u) * (1 - 2 * u)))) by ring.
  assert (0 <= (1 - 2 * u) * (1 - 2 * u)) by (apply Rle_0_sqr).
  assert (0 <= (3 - a) * (3 - b)) by nra.
  assert (0 <= a * (3 - b)) by nra.
  assert (0 <= (3 - a) * b) by nra.
  assert (0 <= a * b) by nra.
  assert (forall x y, 0 <= x -> 0 <= y -> 0 <= x * y) as P by (intros; nra).
  pose proof (P _ (6 * (u * (1 - u))) H3 ltac:(lra)).
  pose proof (P _ (3 * ((1 - u) * (1 - u))) H4 ltac:(lra)).
  pose proof (P _ (3 * (u * u)) H5 ltac:(lra)).
  pose proof (P _ (3 * ((1 - 2 * u) * (1 - 2 * u))) H6 ltac:(lra)).
  lra.
Qed.

(** ** Gluing functions at knots *)
(** p_0 up to t_0, p_1 on (t_0, t_1], ..., p_n beyond t_(n-1) *)
Fixpoint glue (p : nat -> R -> R) (t : nat -> R) (n : nat) (x : R) : R :=
  match n with
  | O => p O x
  | S m => if Rle_dec x (t m) then glue p t m x else p (S m) x
  end.

Lemma glue_first p t n x : (forall i, (S i < n)%nat -> t i < t (S i)) ->
  (n = 0%nat \/ x <= t 0%nat) -> glue p t n x = p 0%nat x.
Proof.
  intros Ht H. induction n as [|n IH]; simpl; [reflexivity|].
  destruct H as [H|H]; [discriminate|].
  assert (t 0%nat <= t n).
  { clear IH. induction n as [|n IHn]; [lra|]. apply Rle_trans with (t n).
    - apply IHn. intros; apply Ht; lia.
    - left. apply Ht. lia. }
  destruct (Rle_dec x (t n)); [|lra]. apply IH.
  - intros; apply Ht; lia.
  - right; assumption.
Qed.

Lemma glue_mono t n i : (forall i, (S i < n)%nat -> t i < t (S i)) -> (i < n)%nat ->
  t i <= t (n - 1)%nat.
Proof.
  intros Ht. induction n as [|n IH]; intros Hi; [lia|].
  replace (S n - 1)%nat with n by lia.
  destruct (Nat.eq_dec i n) as [->|]; [lra|].
  apply Rle_trans with (t (n - 1)%nat).
  - apply IH; [intros; apply Ht; lia|lia].
  - left. replace (t n) with (t (S (n - 1))) by (f_equal; lia). apply Ht. lia.
Qed.

Lemma glue_mid p t n i x : (forall i, (S i < n)%nat -> t i < t (S i)) ->
  (i < n)%nat -> t i < x -> (S i = n \/ x <= t (S i)) -> glue p t n x = p (S i) x.
Proof.
  intros Ht Hi Hx H. induction n as [|n IH]; [lia|]. simpl.
  destruct (Nat.eq_dec i n) as [->|Hn].
  - destruct (Rle_dec x (t n)); [lra|reflexivity].
  - assert (x <= t n).
    { destruct H as [H|H]; [lia|]. apply Rle_trans with (t (S i)); [assumption|].
      replace (t n) with (t (S n - 1)%nat) by (f_equal; lia).
      apply (glue_mono t (S n)); [assumption|lia]. }
    destruct (Rle_dec x (t n)); [|lra]. apply IH; try lia.
    + intros; apply Ht; lia.
    + destruct H as [H|H]; [lia|]. destruct (Nat.eq_dec (S i) n); [left; assumption|right; assumption].
Qed.

(** two functions that agree at a, joined there, are continuous *)
Lemma join_continuous f g a x : f a = g a ->
  continuity_pt f x -> continuity_pt g x ->
  continuity_pt (fun y => if Rle_dec y a then f y else g y) x.
Proof.
  intros E Hf Hg. intros e He.
  destruct (Hf e He) as (d1 & D1 & H1). destruct (Hg e He) as (d2 & D2 & H2).
  simpl in *. unfold R_dist in *.
  destruct (Rtotal_order x a) as [L|[L|L]].
  - exists (Rmin d1 (a - x)). split; [apply Rmin_glb_lt; lra|].
    intros y [[Hy1 Hy2] Hy3].
    pose proof (Rmin_l d1 (a - x)). pose proof (Rmin_r d1 (a - x)).
    apply Rabs_def2 in Hy3 as Hy4.
    destruct (Rle_dec y a); [|lra]. destruct (Rle_dec x a); [|lra].
    apply H1. split; [split; assumption|lra].
  - exists (Rmin d1 d2). split; [apply Rmin_glb_lt; lra|].
    intros y [[Hy1 Hy2] Hy3].
    pose proof (Rmin_l d1 d2). pose proof (Rmin_r d1 d2).
    destruct (Rle_dec x a); [|lra].
    destruct (Rle_dec y a).
    + apply H1. split; [split; assumption|lra].
    + rewrite L, E, <- L. apply H2. split; [split; assumption|lra].
  - exists (Rmin d2 (x - a)). split; [apply Rmin_glb_lt; lra|].
    intros y [[Hy1 Hy2] Hy3].
    pose proof (Rmin_l d2 (x - a)). pose proof (Rmin_r d2 (x - a)).
    apply Rabs_def2 in Hy3 as Hy4.
    destruct (Rle_dec y a); [lra|]. destruct (Rle_dec x a); [lra|].
    apply H2. split; [split; assumption|lra].
Qed.

Lemma join_derivable f g f' g' a x : f a = g a -> f' a = g' a ->
  derivable_pt_lim f x (f' x) -> derivable_pt_lim g x (g' x) ->
  derivable_pt_lim (fun y => if Rle_dec y a then f y else g y) x (if Rle_dec x a then f' x else g' x).
Proof.
  intros E E' Hf Hg e He.
  destruct (Hf e He) as ((d1 & D1) & H1). destruct (Hg e He) as ((d2 & D2) & H2).
  simpl in *.
  destruct (Rtotal_order x a) as [L|[L|L]].
  - assert (Hm : 0 < Rmin d1 (a - x)) by (apply Rmin_glb_lt; lra).
    exists (mkposreal _ Hm). intros h Hh0 Hh. simpl in Hh.
    pose proof (Rmin_l d1 (a - x)). pose proof (Rmin_r d1 (a - x)).
    apply Rabs_def2 in Hh as Hh'.
    destruct (Rle_dec (x + h) a); [|lra]. destruct (Rle_dec x a); [|lra].
    apply H1; [assumption|lra].
  - assert (Hm : 0 < Rmin d1 d2) by (apply Rmin_glb_lt; lra).
    exists (mkposreal _ Hm). intros h Hh0 Hh. simpl in Hh.
    pose proof (Rmin_l d1 d2). pose proof (Rmin_r d1 d2).
    destruct (Rle_dec x a); [|lra].
    destruct (Rle_dec (x + h) a).
    + apply H1; [assumption|lra].
    + subst x. rewrite E, E'. apply H2; [assumption|lra].
  - assert (Hm : 0 < Rmin d2 (x - a)) by (apply Rmin_glb_lt; lra).
    exists (mkposreal _ Hm). intros h Hh0 Hh. simpl in Hh.
    pose proof (Rmin_l d2 (x - a)). pose proof (Rmin_r d2 (x - a)).
    apply Rabs_def2 in Hh as Hh'.
    destruct (Rle_dec (x + h) a); [lra|]. destruct (Rle_dec x a); [lra|].
    apply H2; [assumption|lra].
Qed.

Lemma glue_last p t n x : (forall i, (S i < n)%nat -> t i < t (S i)) ->
  (0 < n)%nat -> x = t (n - 1)%nat -> glue p t n x = p (n - 1)%nat x.
Proof.
  intros Ht Hn Hx. destruct n as [|n]; [lia|].
  replace (S n - 1)%nat with n in * by lia. simpl.
  destruct (Rle_dec x (t n)); [|lra].
  destruct n as [|n]; [reflexivity|].
  apply glue_mid; try lia.
  - intros; apply Ht; lia.
  - rewrite Hx. apply Ht. lia.
Qed.

Lemma glue_continuous p t n : (forall i, (S i < n)%nat -> t i < t (S i)) ->
  (forall i, (i < n)%nat -> p i (t i) = p (S i) (t i)) ->
  (forall i x, (i <= n)%nat -> continuity_pt (p i) x) ->
  forall x, continuity_pt (glue p t n) x.
Proof.
  intros Ht Hj Hc. induction n as [|n IH]; intros x.
  - apply (Hc 0%nat). lia.
  - apply (join_continuous (glue p t n) (p (S n)) (t n)).
    + destruct n as [|n].
      * simpl. apply (Hj 0%nat). lia.
      * rewrite (glue_mid p t (S n) n); try lia.
        -- apply Hj. lia.
        -- intros; apply Ht; lia.
        -- apply Ht. lia.
    + apply IH; intros.
      * apply Ht; lia.
      * apply Hj; lia.
      * apply Hc; lia.
    + apply Hc. lia.
Qed.

Lemma glue_derivable p p' t n : (forall i, (S i < n)%nat -> t i < t (S i)) ->
  (forall i, (i < n)%nat -> p i (t i) = p (S i) (t i)) ->
  (forall i, (i < n)%nat -> p' i (t i) = p' (S i) (t i)) ->
  (forall i x, (i <= n)%nat -> derivable_pt_lim (p i) x (p' i x)) ->
  forall x, derivable_pt_lim (glue p t n) x (glue p' t n x).
Proof.
  intros Ht Hj Hj' Hc. induction n as [|n IH]; intros x.
  - apply (Hc 0%nat). lia.
  - apply (join_derivable (glue p t n) (p (S n)) (glue p' t n) (p' (S n)) (t n)).
    + destruct n as [|n].
      * simpl. apply (Hj 0%nat). lia.
      * rewrite (glue_mid p t (S n) n); try lia.
        -- apply Hj. lia.
        -- intros; apply Ht; lia.
        -- apply Ht. lia.
    + destruct n as [|n].
      * simpl. apply (Hj' 0%nat). lia.
      * rewrite (glue_mid p' t (S n) n); try lia.
        -- apply Hj'. lia.
        -- intros; apply Ht; lia.
        -- apply Ht. lia.
    + apply IH; intros.
      * apply Ht; lia.
      * apply Hj; lia.
      * apply Hj'; lia.
      * apply Hc; lia.
    + apply Hc. lia.
Qed.
