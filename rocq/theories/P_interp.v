(** * The linear and PCHIP interpolants of a cast *)
From Coq Require Import ZArith Bool Reals Lra Lia List.
From Coquelicot Require Import Coquelicot.
From Verif Require Import Num XR Res Arr ArrLemmas XRlemmas M_ppinterp S_interp S_poly P_ppinterp P_pval P_pchip.
Import ListNotations.
Local Open Scope R_scope.

Ltac fin := xsimp; rewrite !sdiv_fin by lra; xsimp; rewrite sdiv_fin by lra; xsimp.

Section Block.
  Variables (X Y : list xr) (k K : nat) (xs ys : nat -> R).
  Hypothesis HB : block X Y k K xs ys.

  Lemma ppinterp_piece f (c : list R) x i d :
    in_piece k K xs x i -> f X Y i = Ok (map Fin c) ->
    ppinterp_1 f (Fin x) X Y d = Ok (Fin (pval (x - xs i) c d)).
  Proof.
    intros Hi Hf. unfold ppinterp_1. rewrite (locate_piece _ _ _ _ _ _ HB x i Hi). cbn [bind].
    rewrite Hf. cbn [bind]. destruct Hi as (A1 & A2 & _).
    rewrite (blk_getX _ _ _ _ _ _ HB i) by lia. xsimp. rewrite pval_fin. reflexivity.
  Qed.

  Lemma h_pos i : (k <= i)%nat -> (S i < K)%nat -> 0 < width xs i.
  Proof.
    intros H1 H2. unfold width. pose proof (blk_mono _ _ _ _ _ _ HB i (S i) H1 ltac:(lia) H2). lra.
  Qed.

  (** *** linear *)
  Definition lin_c (i : nat) : list R := [secant xs ys i; ys i].

  Lemma linear_coeffs_real i : (k <= i)%nat -> (S i < K)%nat ->
    linear_coeffs_i X Y i = Ok (map Fin (lin_c i)).
  Proof.
    intros H1 H2. unfold linear_coeffs_i. pose proof (h_pos i H1 H2) as Hh. unfold width in Hh.
    replace (i + 1)%nat with (S i) by lia.
    rewrite !(blk_getX _ _ _ _ _ _ HB), !(blk_getY _ _ _ _ _ _ HB) by lia. xsimp.
    rewrite sdiv_fin by lra. reflexivity.
  Qed.

  (** *** pchip *)
  Definition pch_c (i : nat) : list R :=
    cubic (width xs i) (secant xs ys i) (pchip_slope k K xs ys i) (pchip_slope k K xs ys (S i)) (ys i).

  Lemma nan_at_fin j : (k <= j < K)%nat -> nan_at X Y j = Ok false.
  Proof.
    intros H. unfold nan_at. rewrite (blk_getX _ _ _ _ _ _ HB), (blk_getY _ _ _ _ _ _ HB) by lia.
    reflexivity.
  Qed.

  Lemma nan_at_nan j : (j < length X)%nat ->
    nth_error X j = Some NaN \/ nth_error Y j = Some NaN -> nan_at X Y j = Ok true.
  Proof.
    intros Hj H. unfold nan_at. pose proof (blk_len _ _ _ _ _ _ HB) as Hl.
    destruct (nth_error X j) as [a|] eqn:Ea.
    2:{ apply nth_error_None in Ea. lia. }
    destruct (nth_error Y j) as [b|] eqn:Eb.
    2:{ apply nth_error_None in Eb. lia. }
    rewrite (get_ok _ _ _ Ea), (get_ok _ _ _ Eb). cbn [bind].
    destruct H as [H|H]; injection H as ->; [reflexivity|].
    destruct a; reflexivity.
  Qed.

  Lemma at_start_spec i : (k <= i)%nat -> (S i < K)%nat ->
    (if Nat.eqb i 0 then Ok true else nan_at X Y (i - 1)) = Ok (Nat.eqb i k).
  Proof.
    intros H1 H2. pose proof (blk_K _ _ _ _ _ _ HB).
    destruct (Nat.eqb_spec i 0) as [->|Hi].
    - destruct (Nat.eqb_spec 0 k); [reflexivity|lia].
    - destruct (Nat.eqb_spec i k) as [->|Hk].
      + apply nan_at_nan; [lia|]. apply (blk_pre _ _ _ _ _ _ HB). lia.
      + apply nan_at_fin. lia.
  Qed.

  Lemma at_end_spec i : (k <= i)%nat -> (S i < K)%nat ->
    (if Nat.eqb i (length X - 2) then Ok true else nan_at X Y (i + 2)) = Ok (Nat.eqb (i + 2) K).
  Proof.
    intros H1 H2. pose proof (blk_K _ _ _ _ _ _ HB).
    destruct (Nat.eqb_spec i (length X - 2)) as [->|Hi].
    - destruct (Nat.eqb_spec (length X - 2 + 2) K); [reflexivity|lia].
    - destruct (Nat.eqb_spec (i + 2) K) as [E|Hk].
      + rewrite E. apply nan_at_nan; [lia|]. apply (blk_post _ _ _ _ _ _ HB). lia.
      + apply nan_at_fin. lia.
  Qed.

  Lemma pchip_i_start_eq (a b c d : xr) : pchip_i_start a b c d = pchip_end a b c d.
  Proof. reflexivity. Qed.

  Lemma pchip_i_end_real h0 h1 δ0 δ1 : 0 < h0 -> 0 < h1 ->
    pchip_i_end (Fin h0) (Fin h1) (Fin δ0) (Fin δ1) = Ok (Fin (slope_end h1 h0 δ1 δ0)).
  Proof.
    intros H0 H1. rewrite <- pchip_end_real by assumption.
    unfold pchip_i_end, pchip_end. xsimp. rewrite (Rplus_comm h0 (2 * h1)), (Rplus_comm h0 h1). reflexivity.
  Qed.

  Lemma pchip_i_mid_real h0 h1 δ0 δ1 : 0 < h0 -> 0 < h1 ->
    pchip_i_mid (Fin h0) (Fin h1) (Fin δ0) (Fin δ1) = Ok (Fin (slope_mid h0 h1 δ0 δ1)).
  Proof.
    intros H0 H1. rewrite <- pchip_mid_real by assumption.
    unfold pchip_i_mid, pchip_mid. xsimp.
    rewrite (Rplus_comm (2 * h1) h0), (Rplus_comm h1 (2 * h0)). reflexivity.
  Qed.

  Lemma slope_first : (k + 2 < K)%nat -> pchip_slope k K xs ys k =
    slope_end (width xs k) (width xs (k + 1)) (secant xs ys k) (secant xs ys (k + 1)).
  Proof.
    intros H. unfold pchip_slope. destruct (Nat.eqb_spec (K - k) 2); [lia|].
    rewrite Nat.eqb_refl. reflexivity.
  Qed.
  Lemma slope_last : (k + 2 < K)%nat -> pchip_slope k K xs ys (K - 1) =
    slope_end (width xs (K - 2)) (width xs (K - 3)) (secant xs ys (K - 2)) (secant xs ys (K - 3)).
  Proof.
    intros H. unfold pchip_slope. destruct (Nat.eqb_spec (K - k) 2); [lia|].
    destruct (Nat.eqb_spec (K - 1) k); [lia|]. rewrite Nat.eqb_refl. reflexivity.
  Qed.
  Lemma slope_inner j : (k < j)%nat -> (S j < K)%nat -> pchip_slope k K xs ys j =
    slope_mid (width xs (j - 1)) (width xs j) (secant xs ys (j - 1)) (secant xs ys j).
  Proof.
    intros H H'. unfold pchip_slope. destruct (Nat.eqb_spec (K - k) 2); [lia|].
    destruct (Nat.eqb_spec j k); [lia|]. destruct (Nat.eqb_spec j (K - 1)); [lia|]. reflexivity.
  Qed.

  Lemma pchip_coeffs_real i : (k <= i)%nat -> (S i < K)%nat ->
    pchip_coeffs_i X Y i = Ok (map Fin (pch_c i)).
  Proof.
    intros H1 H2. unfold pchip_coeffs_i.
    rewrite at_start_spec, at_end_spec by assumption. cbn [bind].
    pose proof (h_pos i H1 H2) as Hh. 
    rewrite (blk_getX _ _ _ _ _ _ HB i), (blk_getY _ _ _ _ _ _ HB i) by lia.
    rewrite (blk_getX _ _ _ _ _ _ HB (i + 1)), (blk_getY _ _ _ _ _ _ HB (i + 1)) by lia.
    cbn [bind].
    assert (Ew : forall a, (xs (a + 1)%nat - xs a) = width xs a).
    { intros a. unfold width. replace (a + 1)%nat with (S a) by lia. reflexivity. }
    assert (Es : forall a b, b = S a -> (k <= a)%nat -> (S a < K)%nat ->
       sdiv (Fin (ys b - ys a)) (Fin (xs b - xs a)) = Ok (Fin (secant xs ys a))).
    { intros a b -> Ha Hb. pose proof (h_pos a Ha Hb) as Hp. unfold width in Hp.
      rewrite sdiv_fin by lra. reflexivity. }
    destruct (Nat.eqb_spec i k) as [Hk|Hk]; destruct (Nat.eqb_spec (i + 2) K) as [HK|HK];
      cbn [andb].
    - (* two points *)
      xsimp. rewrite (Es i (i + 1)%nat) by lia. cbn [bind].
      assert (E1 : pchip_slope k K xs ys i = secant xs ys i).
      { unfold pchip_slope. replace (K - k)%nat with 2%nat by lia. rewrite Nat.eqb_refl. congruence. }
      assert (E2 : pchip_slope k K xs ys (S i) = secant xs ys i).
      { unfold pchip_slope. replace (K - k)%nat with 2%nat by lia. rewrite Nat.eqb_refl. congruence. }
      unfold pch_c. rewrite E1, E2. unfold cubic. cbn [map].
      replace (((secant xs ys i - secant xs ys i) / width xs i
         - (secant xs ys i - secant xs ys i) / width xs i) / width xs i) with 0 by (field; lra).
      replace (2 * ((secant xs ys i - secant xs ys i) / width xs i)
         - (secant xs ys i - secant xs ys i) / width xs i) with 0 by (field; lra).
      reflexivity.
    - (* start *)
      rewrite (blk_getX _ _ _ _ _ _ HB (i + 2)), (blk_getY _ _ _ _ _ _ HB (i + 2)) by lia.
      xsimp. rewrite (Es i (i + 1)%nat), (Es (i + 1)%nat (i + 2)%nat) by lia. cbn [bind].
      pose proof (h_pos (i + 1) ltac:(lia) ltac:(lia)) as Hh2.
      replace (xs (i + 2)%nat - xs (i + 1)%nat) with (width xs (i + 1)) by (unfold width; do 2 f_equal; lia).
      rewrite (Ew i). rewrite pchip_i_start_eq, pchip_end_real by assumption. cbn [bind].
      rewrite pchip_i_mid_real by assumption. cbn [bind].
      fin. unfold pch_c. subst i. rewrite slope_first by lia.
      rewrite (slope_inner (S k)) by lia.
      replace (S k - 1)%nat with k by lia. replace (k + 1)%nat with (S k) by lia. reflexivity.
    - (* end *)
      rewrite (blk_getX _ _ _ _ _ _ HB (i - 1)), (blk_getY _ _ _ _ _ _ HB (i - 1)) by lia.
      xsimp. rewrite (Es i (i + 1)%nat), (Es (i - 1)%nat i) by lia. cbn [bind].
      pose proof (h_pos (i - 1) ltac:(lia) ltac:(lia)) as Hh2.
      replace (xs i - xs (i - 1)%nat) with (width xs (i - 1)) by (unfold width; do 2 f_equal; lia).
      rewrite (Ew i). rewrite pchip_i_mid_real by assumption. cbn [bind].
      rewrite pchip_i_end_real by assumption. cbn [bind].
      fin. unfold pch_c. rewrite slope_inner by lia.
      replace (S i) with (K - 1)%nat by lia. rewrite slope_last by lia.
      replace (K - 2)%nat with i by lia. replace (K - 3)%nat with (i - 1)%nat by lia. reflexivity.
    - (* interior *)
      rewrite (blk_getX _ _ _ _ _ _ HB (i - 1)), (blk_getY _ _ _ _ _ _ HB (i - 1)) by lia.
      cbn [bind].
      rewrite (blk_getX _ _ _ _ _ _ HB (i + 2)), (blk_getY _ _ _ _ _ _ HB (i + 2)) by lia.
      xsimp. rewrite (Es i (i + 1)%nat), (Es (i - 1)%nat i), (Es (i + 1)%nat (i + 2)%nat) by lia. cbn [bind].
      pose proof (h_pos (i - 1) ltac:(lia) ltac:(lia)) as Hh0.
      pose proof (h_pos (i + 1) ltac:(lia) ltac:(lia)) as Hh2.
      replace (xs i - xs (i - 1)%nat) with (width xs (i - 1)) by (unfold width; do 2 f_equal; lia).
      replace (xs (i + 2)%nat - xs (i + 1)%nat) with (width xs (i + 1)) by (unfold width; do 2 f_equal; lia).
      rewrite (Ew i). rewrite pchip_i_mid_real by assumption. cbn [bind].
      rewrite pchip_i_mid_real by assumption. cbn [bind].
      fin. unfold pch_c. rewrite !slope_inner by lia.
      replace (S i - 1)%nat with i by lia. replace (i + 1)%nat with (S i) by lia. reflexivity.
  Qed.

  (** *** the interpolants as real functions *)
  Definition interpolant (c : nat -> list R) (d : nat) : R -> R :=
    glue (fun j x => pval (x - xs (k + j)%nat) (c (k + j)%nat) d)
         (fun j => xs (k + j + 1)%nat) (K - k - 2).

  Lemma knots_inc j : (S j < K - k - 2)%nat -> xs (k + j + 1)%nat < xs (k + S j + 1)%nat.
  Proof. intros H. apply (blk_mono _ _ _ _ _ _ HB); lia. Qed.

  Lemma interpolant_piece c d x i : in_piece k K xs x i ->
    interpolant c d x = pval (x - xs i) (c i) d.
  Proof.
    intros (A1 & A2 & A3 & A4). unfold interpolant.
    destruct (Nat.eq_dec i k) as [->|Hne].
    - rewrite glue_first.
      + replace (k + 0)%nat with k by lia. reflexivity.
      + exact knots_inc.
      + right. replace (k + 0 + 1)%nat with (S k) by lia. lra.
    - destruct A4 as [A4|A4]; [contradiction|].
      rewrite (glue_mid _ _ _ (i - k - 1)).
      + replace (k + S (i - k - 1))%nat with i by lia. reflexivity.
      + exact knots_inc.
      + lia.
      + replace (k + (i - k - 1) + 1)%nat with i by lia. assumption.
      + right. replace (k + S (i - k - 1) + 1)%nat with (S i) by lia. lra.
  Qed.

  Lemma ppinterp_interpolant f c :
    (forall i, (k <= i)%nat -> (S i < K)%nat -> f X Y i = Ok (map Fin (c i))) ->
    forall x d, (k + 1 < K)%nat -> xs k <= x <= xs (K - 1)%nat ->
    ppinterp_1 f (Fin x) X Y d = Ok (Fin (interpolant c d x)).
  Proof.
    intros Hf x d H1 H2. destruct (in_piece_exists _ _ _ _ _ _ HB x H1 H2) as (i & Hi).
    rewrite (ppinterp_piece f (c i) x i d Hi).
    - rewrite (interpolant_piece c d x i Hi). reflexivity.
    - destruct Hi as (A1 & A2 & _). apply Hf; assumption.
  Qed.

  Lemma pval_shift_derive c d a x :
    derivable_pt_lim (fun x => pval (x - a) c d) x (pval (x - a) c (S d)).
  Proof.
    apply is_derive_Reals. rewrite pval_dpoly.
    apply (is_derive_ext (fun x => dpoly c d (x - a))).
    { intros t. symmetry. apply pval_dpoly. }
    replace (dpoly c (S d) (x - a)) with (scal (V := R_NormedModule) 1 (dpoly c (S d) (x - a)))
      by (unfold scal; simpl; unfold mult; simpl; ring).
    apply (is_derive_comp (dpoly c d) (fun x => x - a)).
    - apply dpoly_derive.
    - auto_derive; [trivial|ring].
  Qed.

  Lemma pval_shift_continuous c d a x : continuity_pt (fun x => pval (x - a) c d) x.
  Proof. apply derivable_continuous_pt. eexists. apply pval_shift_derive. Qed.

  (** value (and slope) at both ends of each piece *)
  Lemma lin_left i : pval (xs i - xs i) (lin_c i) 0 = ys i.
  Proof. rewrite pval_dpoly, dpoly_0. unfold lin_c. simpl. ring. Qed.
  Lemma lin_right i : (k <= i)%nat -> (S i < K)%nat -> pval (xs (S i) - xs i) (lin_c i) 0 = ys (S i).
  Proof.
    intros H1 H2. pose proof (h_pos i H1 H2) as Hh. unfold width in Hh.
    rewrite pval_dpoly, dpoly_0. unfold lin_c, secant. simpl. field. lra.
  Qed.
  Lemma lin_val i x : pval (x - xs i) (lin_c i) 0 = ys i + (x - xs i) * secant xs ys i.
  Proof. rewrite pval_dpoly, dpoly_0. unfold lin_c. simpl. ring. Qed.
  Lemma lin_der i x : pval (x - xs i) (lin_c i) 1 = secant xs ys i.
  Proof. rewrite pval_dpoly. unfold lin_c. simpl. unfold ffac. simpl. ring. Qed.
  Lemma lin_der2 i x d : pval (x - xs i) (lin_c i) (S (S d)) = 0.
  Proof.
    destruct d as [|d]; [|apply pval_high; simpl; lia].
    rewrite pval_dpoly. unfold lin_c. simpl. unfold ffac. simpl. ring.
  Qed.

  Lemma pch_left i : pval (xs i - xs i) (pch_c i) 0 = ys i.
  Proof. rewrite pval_dpoly, dpoly_0. unfold pch_c, cubic. simpl. ring. Qed.
  Lemma pch_right i : (k <= i)%nat -> (S i < K)%nat -> pval (xs (S i) - xs i) (pch_c i) 0 = ys (S i).
  Proof.
    intros H1 H2. pose proof (h_pos i H1 H2) as Hh. unfold pch_c. rewrite cubic_val by lra.
    unfold secant, width in *. field. lra.
  Qed.
  Lemma pch_dleft i : pval (xs i - xs i) (pch_c i) 1 = pchip_slope k K xs ys i.
  Proof. rewrite pval_dpoly. unfold pch_c, cubic. simpl. unfold ffac. simpl. ring. Qed.
  Lemma pch_dright i : (k <= i)%nat -> (S i < K)%nat ->
    pval (xs (S i) - xs i) (pch_c i) 1 = pchip_slope k K xs ys (S i).
  Proof.
    intros H1 H2. pose proof (h_pos i H1 H2) as Hh. unfold pch_c. rewrite cubic_d by lra.
    unfold width in *. field. lra.
  Qed.

  Lemma interpolant_continuous c d :
    (forall i, (k <= i)%nat -> (S (S i) < K)%nat ->
       pval (xs (S i) - xs i) (c i) d = pval (xs (S i) - xs (S i)) (c (S i)) d) ->
    forall x, continuity_pt (interpolant c d) x.
  Proof.
    intros H. apply glue_continuous.
    - exact knots_inc.
    - intros i Hi. cbv beta. replace (k + i + 1)%nat with (S (k + i)) by lia.
      replace (k + S i)%nat with (S (k + i)) by lia. apply H; lia.
    - intros. apply pval_shift_continuous.
  Qed.

  Lemma interpolant_derivable c d :
    (forall i, (k <= i)%nat -> (S (S i) < K)%nat ->
       pval (xs (S i) - xs i) (c i) d = pval (xs (S i) - xs (S i)) (c (S i)) d) ->
    (forall i, (k <= i)%nat -> (S (S i) < K)%nat ->
       pval (xs (S i) - xs i) (c i) (S d) = pval (xs (S i) - xs (S i)) (c (S i)) (S d)) ->
    forall x, derivable_pt_lim (interpolant c d) x (interpolant c (S d) x).
  Proof.
    intros H H'. apply glue_derivable.
    - exact knots_inc.
    - intros i Hi. cbv beta. replace (k + i + 1)%nat with (S (k + i)) by lia.
      replace (k + S i)%nat with (S (k + i)) by lia. apply H; lia.
    - intros i Hi. cbv beta. replace (k + i + 1)%nat with (S (k + i)) by lia.
      replace (k + S i)%nat with (S (k + i)) by lia. apply H'; lia.
    - intros. apply pval_shift_derive.
  Qed.

  (** every data site lies in a piece *)
  Lemma knot_piece j : (k + 1 < K)%nat -> (k <= j < K)%nat ->
    in_piece k K xs (xs j) (Nat.max k (j - 1)).
  Proof.
    intros H1 H2. unfold in_piece.
    destruct (Nat.eq_dec j k) as [->|Hne].
    - replace (Nat.max k (k - 1)) with k by lia.
      pose proof (blk_mono _ _ _ _ _ _ HB k (S k) ltac:(lia) ltac:(lia) ltac:(lia)).
      repeat split; try lia; lra.
    - replace (Nat.max k (j - 1)) with (j - 1)%nat by lia.
      pose proof (blk_mono _ _ _ _ _ _ HB (j - 1) j ltac:(lia) ltac:(lia) ltac:(lia)).
      replace (S (j - 1)) with j by lia.
      repeat split; try lia; try lra.
  Qed.

  Lemma interpolant_knot c (v : nat -> R) d j : (k + 1 < K)%nat -> (k <= j < K)%nat ->
    (forall i, (k <= i)%nat -> (S i < K)%nat -> pval (xs i - xs i) (c i) d = v i) ->
    (forall i, (k <= i)%nat -> (S i < K)%nat -> pval (xs (S i) - xs i) (c i) d = v (S i)) ->
    interpolant c d (xs j) = v j.
  Proof.
    intros H1 H2 Hl Hr. rewrite (interpolant_piece c d _ _ (knot_piece j H1 H2)).
    destruct (Nat.eq_dec j k) as [->|Hne].
    - replace (Nat.max k (k - 1)) with k by lia. apply Hl; lia.
    - replace (Nat.max k (j - 1)) with (j - 1)%nat by lia.
      replace (xs j) with (xs (S (j - 1))) by (f_equal; lia).
      replace (v j) with (v (S (j - 1))) by (f_equal; lia). apply Hr; lia.
  Qed.

  (** *** shape preservation *)
  Lemma pchip_lim i : (k <= i)%nat -> (S i < K)%nat ->
    lim3 (pchip_slope k K xs ys i) (secant xs ys i)
    /\ lim3 (pchip_slope k K xs ys (S i)) (secant xs ys i).
  Proof.
    intros H1 H2.
    destruct (Nat.eq_dec (K - k) 2) as [E2|N2].
    { assert (i = k) by lia. subst i. unfold pchip_slope. rewrite E2. simpl.
      split; exists 1; split; lra. }
    split.
    - destruct (Nat.eq_dec i k) as [->|Hne].
      + rewrite slope_first by lia. apply slope_end_lim; apply h_pos; lia.
      + rewrite slope_inner by lia. apply slope_mid_lim; apply h_pos; lia.
    - destruct (Nat.eq_dec (S i) (K - 1)) as [E|Hne].
      + rewrite E, slope_last by lia. replace (K - 2)%nat with i by lia.
        apply slope_end_lim; apply h_pos; lia.
      + rewrite slope_inner by lia. replace (S i - 1)%nat with i by lia.
        apply slope_mid_lim; apply h_pos; lia.
  Qed.

  Lemma pch_mono i x x' : (k <= i)%nat -> (S i < K)%nat ->
    xs i <= x -> x <= x' -> x' <= xs (S i) ->
    0 <= (ys (S i) - ys i) * (pval (x' - xs i) (pch_c i) 0 - pval (x - xs i) (pch_c i) 0).
  Proof.
    intros H1 H2 A B C. pose proof (h_pos i H1 H2) as Hh.
    destruct (pchip_lim i H1 H2) as [L1 L2].
    destruct (Req_dec x x') as [->|Hne]; [lra|].
    destruct (MVT_cor2 (fun x => pval (x - xs i) (pch_c i) 0) (fun x => pval (x - xs i) (pch_c i) 1) x x')
      as (c & Ec & Hc).
    - lra.
    - intros. apply pval_shift_derive.
    - cbv beta in Ec. rewrite Ec.
      assert (D : 0 <= secant xs ys i * pval (c - xs i) (pch_c i) 1).
      { apply cubic_mono_dir; auto. unfold width. lra. }
      assert (Ed : ys (S i) - ys i = secant xs ys i * width xs i).
      { unfold secant, width in *. field. lra. }
      rewrite Ed.
      replace (secant xs ys i * width xs i * (pval (c - xs i) (pch_c i) 1 * (x' - x)))
        with (secant xs ys i * pval (c - xs i) (pch_c i) 1 * (width xs i * (x' - x))) by ring.
      apply Rmult_le_pos; [assumption|]. apply Rmult_le_pos; lra.
  Qed.

  Lemma pch_between i x : (k <= i)%nat -> (S i < K)%nat -> xs i <= x <= xs (S i) ->
    Rmin (ys i) (ys (S i)) <= pval (x - xs i) (pch_c i) 0 <= Rmax (ys i) (ys (S i)).
  Proof.
    intros H1 H2 Hx.
    pose proof (pch_mono i (xs i) x H1 H2 ltac:(lra) ltac:(lra) ltac:(lra)) as M1.
    pose proof (pch_mono i x (xs (S i)) H1 H2 ltac:(lra) ltac:(lra) ltac:(lra)) as M2.
    rewrite pch_left in M1. rewrite pch_right in M2 by assumption.
    destruct (Rtotal_order (ys i) (ys (S i))) as [L|[E|L]].
    - rewrite Rmin_left, Rmax_right by lra. nra.
    - (* constant data: slopes vanish *)
      rewrite E, Rmin_left, Rmax_left by lra.
      destruct (pchip_lim i H1 H2) as [(a & _ & La) (b & _ & Lb)].
      unfold pch_c. rewrite La, Lb. unfold secant. rewrite E.
      pose proof (h_pos i H1 H2). rewrite cubic_val by lra.
      replace ((ys (S i) - ys (S i)) / (xs (S i) - xs i)) with 0
        by (unfold Rdiv; rewrite Rminus_diag_eq by reflexivity; ring).
      assert (forall z, ys (S i) <= ys (S i) + z <= ys (S i) <-> z = 0) as Z by (intros; split; lra).
      match goal with |- _ <= ?v <= _ => replace v with (ys (S i)); [lra|] end.
      field. lra.
    - rewrite Rmin_right, Rmax_left by lra. nra.
  Qed.

  Lemma lin_between i x : (k <= i)%nat -> (S i < K)%nat -> xs i <= x <= xs (S i) ->
    Rmin (ys i) (ys (S i)) <= pval (x - xs i) (lin_c i) 0 <= Rmax (ys i) (ys (S i)).
  Proof.
    intros H1 H2 Hx. rewrite lin_val. pose proof (h_pos i H1 H2) as Hh.
    set (u := (x - xs i) / width xs i).
    assert (Hu : 0 <= u <= 1).
    { unfold u, width in *. split.
      - apply Rmult_le_pos; [lra|]. left; apply Rinv_0_lt_compat; lra.
      - apply Rmult_le_reg_r with (xs (S i) - xs i); [lra|].
        unfold Rdiv. rewrite Rmult_assoc, Rinv_l by lra. lra. }
    replace (ys i + (x - xs i) * secant xs ys i) with (ys i + u * (ys (S i) - ys i))
      by (unfold u, secant, width in *; field; lra).
    destruct (Rle_dec (ys i) (ys (S i))).
    - rewrite Rmin_left, Rmax_right by lra. nra.
    - rewrite Rmin_right, Rmax_left by lra. nra.
  Qed.
End Block.
