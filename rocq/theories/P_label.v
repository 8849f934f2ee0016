(** * The Veronis density: proofs *)
From Coq Require Import String ZArith Bool Reals Lra Lia List.
From Coquelicot Require Import Coquelicot.
From Verif Require Import Num XR Res Arr ArrLemmas XRlemmas M_ppinterp S_interp S_poly P_ppinterp P_pval P_pchip P_interp
  P_coeffs NumLaws P_interp2 M_make_pp M_eos_base M_eostools M_label S_traj S_label P_quad.
Import ListNotations.
Local Open Scope R_scope.

(** ** Rows of coefficients *)
Lemma nth_blk_X X Y k K xs ys i : block X Y k K xs ys -> (k <= i < K)%nat -> nth i X (@nan xr _) = Fin (xs i).
Proof. intros HB Hi. apply nth_error_nth. apply (blk_X _ _ _ _ _ _ HB). assumption. Qed.
Lemma nth_blk_Y X Y k K xs ys i : block X Y k K xs ys -> (k <= i < K)%nat -> nth i Y (@nan xr _) = Fin (ys i).
Proof. intros HB Hi. apply nth_error_nth. apply (blk_Y _ _ _ _ _ _ HB). assumption. Qed.

Section Rows.
  Variables (X Y : list xr) (k K : nat) (xs ys : nat -> R).
  Hypothesis HB : block X Y k K xs ys.

  Lemma hx_real i : (k <= i)%nat -> (S i < K)%nat -> hx X i = Fin (width xs i).
  Proof.
    intros H1 H2. unfold hx. replace (i + 1)%nat with (S i) by lia.
    rewrite !(nth_blk_X _ _ _ _ _ _ _ HB) by lia. reflexivity.
  Qed.
  Lemma dl_real i : (k <= i)%nat -> (S i < K)%nat -> dl X Y i = Fin (secant xs ys i).
  Proof.
    intros H1 H2. unfold dl. rewrite hx_real by assumption. replace (i + 1)%nat with (S i) by lia.
    rewrite !(nth_blk_Y _ _ _ _ _ _ _ HB) by lia. cbn [sub div xrNum xr_sub].
    pose proof (h_pos _ _ _ _ _ _ HB i H1 H2). rewrite xr_div_fin by lra. reflexivity.
  Qed.

  Lemma gslope_real j : (2 < K - k)%nat -> (k <= j < K)%nat -> gslope X Y k K j = Ok (Fin (pchip_slope k K xs ys j)).
  Proof.
    intros H2 Hj. unfold gslope.
    assert (Hp : forall i, (k <= i)%nat -> (S i < K)%nat -> 0 < width xs i) by (intros; apply (h_pos _ _ _ _ _ _ HB); assumption).
    destruct (Nat.eqb_spec j k) as [->|Hk].
    - rewrite !hx_real, !dl_real by lia. rewrite pchip_end_real by (apply Hp; lia). rewrite slope_first by lia. reflexivity.
    - destruct (Nat.eqb_spec j (K - 1)) as [->|HK].
      + rewrite !hx_real, !dl_real by lia. rewrite pchip_end_real by (apply Hp; lia). rewrite slope_last by lia. reflexivity.
      + rewrite !hx_real, !dl_real by lia. rewrite pchip_mid_real by (apply Hp; lia). rewrite slope_inner by lia. reflexivity.
  Qed.

  Lemma pchip_rows junk : exists C, pchip_coeffs_1 junk X Y = Ok C /\ last_col C = Y
    /\ forall i, (k <= i)%nat -> (S i < K)%nat -> nth_error C i = Some (map Fin (pch_c k K xs ys i)).
  Proof.
    destruct (pchip_coeffs_kK_ok _ _ _ _ _ _ HB junk) as (C & EC). exists C.
    unfold pchip_coeffs_1. rewrite (block_valid_range _ _ _ _ _ _ HB). cbn [bind]. split; [assumption|].
    destruct (pchip_coeffs_kK_inv X Y junk k K C (blk_len _ _ _ _ _ _ HB) (blk_K _ _ _ _ _ _ HB) EC) as (El & _ & HC).
    split; [assumption|]. intros i H1 H2. destruct (HC i H1 ltac:(lia)) as (_ & c3 & c2 & c1 & -> & G3 & G2).
    rewrite (nth_blk_Y _ _ _ _ _ _ _ HB) by lia.
    pose proof (h_pos _ _ _ _ _ _ HB i H1 H2) as Hh.
    destruct (Nat.eq_dec (K - k) 2) as [E2|N2].
    - destruct (G2 E2) as (-> & -> & ->). rewrite dl_real by assumption.
      assert (i = k) by lia. subst i.
      unfold pch_c, pchip_slope. rewrite E2, Nat.eqb_refl. unfold cubic. cbn [map].
      cbn [lit xrNum]. rewrite Rlit_0.
      replace (((secant xs ys k - secant xs ys k) / width xs k - (secant xs ys k - secant xs ys k) / width xs k) / width xs k)
        with 0 by (field; lra).
      replace (2 * ((secant xs ys k - secant xs ys k) / width xs k) - (secant xs ys k - secant xs ys k) / width xs k)
        with 0 by (field; lra).
      reflexivity.
    - specialize (G3 ltac:(lia)). unfold grow in G3. rewrite !gslope_real in G3 by lia. cbn [bind] in G3.
      rewrite hx_real, dl_real in G3 by assumption. unfold pchip_piece in G3. xsimp_in G3.
      rewrite !sdiv_fin in G3 by lra. xsimp_in G3. rewrite sdiv_fin in G3 by lra. xsimp_in G3.
      injection G3 as <- <- <-. unfold pch_c, cubic. cbn [map]. replace (i + 1)%nat with (S i) by lia. reflexivity.
  Qed.

  Lemma linear_rows junk : exists C, linear_coeffs_1 junk X Y = Ok C /\ last_col C = Y
    /\ forall i, (k <= i)%nat -> (S i < K)%nat -> nth_error C i = Some (map Fin (lin_c xs ys i)).
  Proof.
    assert (Hne : X <> []) by (pose proof (blk_K _ _ _ _ _ _ HB); pose proof (blk_kK _ _ _ _ _ _ HB); destruct X; simpl in *; [lia|discriminate]).
    destruct (linear_coeffs_1_spec junk X Y Hne (blk_len _ _ _ _ _ _ HB)) as (C & EC & El & HC).
    exists C. split; [assumption|]. split; [assumption|]. intros i H1 H2.
    pose proof (blk_K _ _ _ _ _ _ HB). rewrite HC by lia.
    pose proof (dl_real i H1 H2) as D. unfold dl, hx in D. rewrite D.
    rewrite (nth_blk_Y _ _ _ _ _ _ _ HB) by lia. reflexivity.
  Qed.
End Rows.

Local Ltac inp := split; [lia|split; [lia|split; [lra|]]].

(** a function that agrees with the interpolant on the pieces agrees up to the knots *)
Lemma linear_closed X Y K xs ys g : block X Y 0 K xs ys -> linear_fun K xs ys g ->
  forall i x, (S i < K)%nat -> xs i <= x <= xs (S i) -> g x = pval (x - xs i) (lin_c xs ys i) 0.
Proof.
  intros HB Hg i x Hi Hx.
  destruct (Rle_lt_or_eq_dec (xs i) x (proj1 Hx)) as [Hlt|Heq].
  - rewrite lin_val. apply Hg. inp; right; assumption.
  - destruct i as [|i].
    + rewrite lin_val. apply Hg. inp; left; reflexivity.
    + subst x. rewrite lin_left. rewrite (Hg (xs (S i)) i).
      * rewrite <- lin_val. apply (lin_right _ _ _ _ _ _ HB); lia.
      * pose proof (blk_inc _ _ _ _ _ _ HB i ltac:(lia) ltac:(lia)). inp; right; assumption.
Qed.

Lemma pchip_closed X Y K xs ys g : block X Y 0 K xs ys -> pchip_fun K xs ys g ->
  forall i x, (S i < K)%nat -> xs i <= x <= xs (S i) -> g x = pval (x - xs i) (pch_c 0 K xs ys i) 0.
Proof.
  intros HB Hg i x Hi Hx.
  assert (Hp : forall x i, in_piece 0 K xs x i -> g x = pval (x - xs i) (pch_c 0 K xs ys i) 0).
  { intros z j Hj. rewrite (Hg z j Hj). destruct Hj as (A1 & A2 & _). cbv zeta.
    pose proof (h_pos _ _ _ _ _ _ HB j A1 A2). unfold pch_c. rewrite cubic_val by lra.
    set (h := width xs j) in *. field. lra. }
  destruct (Rle_lt_or_eq_dec (xs i) x (proj1 Hx)) as [Hlt|Heq].
  - apply Hp. inp; right; assumption.
  - destruct i as [|i].
    + apply Hp. inp; left; reflexivity.
    + subst x. rewrite pch_left. rewrite (Hp (xs (S i)) i).
      * apply (pch_right _ _ _ _ _ _ HB); lia.
      * pose proof (blk_inc _ _ _ _ _ _ HB i ltac:(lia) ltac:(lia)). inp; right; assumption.
Qed.

(** ** np.linspace and np.trapz on finite numbers *)
Lemma of_nat_R n : @of_nat R _ n = INR n.
Proof. unfold of_nat. cbn [lit RNum]. rewrite Rlit_0, <- INR_IZR_INZ. reflexivity. Qed.
Lemma of_nat_xr n : @of_nat xr _ n = Fin (INR n).
Proof. unfold of_nat. cbn [lit xrNum]. rewrite Rlit_0, <- INR_IZR_INZ. reflexivity. Qed.

Definition point (a b : R) (m i : nat) : R := if Nat.eqb i m then b else a + INR i * ((b - a) / INR m).

Lemma linspace_SS (a b : R) m : linspace a b (S (S m)) = map (point a b (S m)) (seq 0 (S (S m))).
Proof.
  unfold linspace. apply map_ext. intros i. unfold point. rewrite !of_nat_R. reflexivity.
Qed.

Lemma linspace_fin a b n : linspace (Fin a) (Fin b) n = map Fin (linspace a b n).
Proof.
  destruct n as [|[|m]]; [reflexivity|reflexivity|]. rewrite linspace_SS. unfold linspace.
  rewrite map_map. apply map_ext. intros i. unfold point. destruct (Nat.eqb i (S m)); [reflexivity|].
  rewrite !of_nat_xr. assert (INR (S m) <> 0) by (apply not_0_INR; lia).
  cbn [sub div xrNum xr_sub]. rewrite xr_div_fin by assumption. reflexivity.
Qed.

Lemma point_step a b m i dp : a <= b -> b - a <= dp * INR m -> (i < m)%nat ->
  0 <= point a b m (S i) - point a b m i <= dp.
Proof.
  intros Hab Hdp Hi. assert (Hm : 0 < INR m) by (apply lt_0_INR; lia).
  assert (E : forall j, (j <= m)%nat -> point a b m j = a + INR j * ((b - a) / INR m)).
  { intros j Hj. unfold point. destruct (Nat.eqb_spec j m) as [->|]; [|reflexivity]. field. lra. }
  rewrite !E by lia. rewrite S_INR.
  replace (_ - _) with ((b - a) / INR m) by ring. split.
  - apply Rmult_le_pos; [lra|]. left. apply Rinv_0_lt_compat. assumption.
  - apply Rmult_le_reg_r with (INR m); [assumption|]. unfold Rdiv. rewrite Rmult_assoc, Rinv_l by lra. lra.
Qed.

Lemma chain_map (pt : nat -> R) dp n : forall s, (forall i, (s <= i)%nat -> (S i < s + n)%nat -> 0 <= pt (S i) - pt i <= dp) ->
  chain dp (map pt (seq s n)).
Proof.
  induction n as [|n IH]; intros s H; [exact I|]. destruct n as [|n]; [exact I|].
  cbn [seq map]. split; [apply H; lia|]. apply (IH (S s)). intros i H1 H2. apply H; lia.
Qed.

Lemma last_map_seq (pt : nat -> R) n d : forall s, last (map pt (seq s (S n))) d = pt (s + n)%nat.
Proof.
  induction n as [|n IH]; intros s; [simpl; f_equal; lia|].
  rewrite <- (Nat.add_succ_comm s n). rewrite <- (IH (S s)). reflexivity.
Qed.

(** n points from a to b *)
Lemma linspace_chain a b dp m : a <= b -> b - a <= dp * INR m -> exists l,
  linspace a b (S m) = a :: l /\ chain dp (a :: l) /\ last (a :: l) a = (if Nat.eqb m 0 then a else b)
  /\ forall x, In x (a :: l) -> a <= x <= b.
Proof.
  intros Hab Hdp. destruct m as [|m].
  - exists []. split; [reflexivity|]. split; [exact I|]. split; [reflexivity|]. intros x [<-|[]]; lra.
  - rewrite linspace_SS. set (pt := point a b (S m)).
    assert (E0 : pt 0%nat = a) by (unfold pt, point; cbn [Nat.eqb INR]; ring).
    assert (Em : pt (S m) = b) by (unfold pt, point; rewrite Nat.eqb_refl; reflexivity).
    exists (map pt (seq 1 (S m))).
    assert (El : a :: map pt (seq 1 (S m)) = map pt (seq 0 (S (S m)))) by (cbn [seq map]; rewrite E0; reflexivity).
    rewrite El. split; [reflexivity|]. split; [|split].
    + apply chain_map. intros i _ Hi. apply point_step; [assumption..|lia].
    + rewrite last_map_seq. cbn [Nat.add Nat.eqb]. assumption.
    + assert (Mono : forall d i j, (i + d = j)%nat -> (j <= S m)%nat -> pt i <= pt j).
      { induction d as [|d IHd]; intros i j E Hj; [replace j with i by lia; lra|].
        apply Rle_trans with (pt (i + d)%nat); [apply IHd; lia|].
        pose proof (point_step a b (S m) (i + d) dp Hab Hdp ltac:(lia)) as [A _].
        fold pt in A. replace (S (i + d)) with j in A by lia. lra. }
      intros x Hx. apply in_map_iff in Hx. destruct Hx as (i & <- & Hi). apply in_seq in Hi.
      rewrite <- E0, <- Em. split; [apply (Mono i); lia|apply (Mono (S m - i)%nat); lia].
Qed.

Lemma fsum_fin l : forall a, fold_left add (map Fin l) (Fin a) = Fin (a + fold_right Rplus 0 l).
Proof.
  induction l as [|x l IH]; intros a; cbn [map fold_left fold_right]; [f_equal; ring|].
  cbn [add xrNum xr_add]. rewrite IH. f_equal. ring.
Qed.

Lemma trapz_fin y l : trapz (map (fun x => Fin (y x)) l) (map Fin l) = Fin (tlist y l).
Proof.
  unfold trapz, fsum, zero. cbn [lit xrNum]. rewrite Rlit_0.
  assert (E : exists t, trapz_terms (map (fun x => Fin (y x)) l) (map Fin l) = map Fin t /\ tlist y l = fold_right Rplus 0 t).
  { induction l as [|x0 l IH]; [exists []; split; reflexivity|].
    destruct l as [|x1 l]; [exists []; split; reflexivity|].
    destruct IH as (t & E1 & E2).
    exists ((x1 - x0) * ((y x1 + y x0) / 2) :: t). split.
    - change (trapz_terms (map (fun x => Fin (y x)) (x0 :: x1 :: l)) (map Fin (x0 :: x1 :: l)))
        with (mul (sub (Fin x1) (Fin x0)) (div (add (Fin (y x1)) (Fin (y x0))) (lit 2 0))
              :: trapz_terms (map (fun x => Fin (y x)) (x1 :: l)) (map Fin (x1 :: l))).
      rewrite E1. cbn [sub add mul div lit xrNum xr_sub xr_add]. rewrite Rlit_0, xr_div_fin by lra. reflexivity.
    - change (tlist y (x0 :: x1 :: l)) with ((x1 - x0) * ((y x1 + y x0) / 2) + tlist y (x1 :: l)).
      rewrite E2. reflexivity. }
  destruct E as (t & E1 & E2). rewrite E1, fsum_fin, E2. f_equal. ring.
Qed.

Lemma mapM_fin (f : xr -> res xr) (y : R -> R) l : (forall x, In x l -> f (Fin x) = Ok (Fin (y x))) ->
  mapM f (map Fin l) = Ok (map (fun x => Fin (y x)) l).
Proof.
  induction l as [|x l IH]; intros H; [reflexivity|]. cbn [map mapM]. rewrite H by (left; reflexivity). cbn [bind].
  rewrite IH by (intros; apply H; right; assumption). reflexivity.
Qed.

Lemma Rceil_spec x : x <= IZR (Rceil x) < x + 1.
Proof.
  unfold Rceil. destruct (base_Int_part (- x)) as [A B]. rewrite opp_IZR. lra.
Qed.

(** number of steps of length at most dp from a to b *)
Definition nsteps (a b dp : R) : nat := Z.to_nat (Rceil ((b - a) / dp)).

Lemma nsteps_spec a b dp : 0 < dp -> a <= b ->
  (Rceil ((b - a) / dp) + 1 = Z.of_nat (S (nsteps a b dp)))%Z /\ b - a <= dp * INR (nsteps a b dp)
  /\ (nsteps a b dp = 0%nat -> a = b).
Proof.
  intros Hdp Hab. unfold nsteps. destruct (Rceil_spec ((b - a) / dp)) as [A B].
  assert (Hq : 0 <= (b - a) / dp) by (apply Rmult_le_pos; [lra|left; apply Rinv_0_lt_compat; lra]).
  assert (Hz : (0 <= Rceil ((b - a) / dp))%Z).
  { apply le_IZR. lra. }
  set (z := Rceil ((b - a) / dp)) in *.
  assert (E : INR (Z.to_nat z) = IZR z) by (rewrite INR_IZR_INZ, Z2Nat.id by assumption; reflexivity).
  assert (C : b - a <= dp * IZR z).
  { apply Rmult_le_reg_r with (/ dp); [apply Rinv_0_lt_compat; lra|].
    replace (dp * IZR z * / dp) with (IZR z) by (field; lra). exact A. }
  split; [lia|]. rewrite E. split; [assumption|]. intros H0. rewrite H0 in E. cbn in E. rewrite <- E in C. lra.
Qed.
