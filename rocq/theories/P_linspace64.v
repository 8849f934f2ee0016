(** * Equidistant points in binary64 *)
From Coq Require Import ZArith Bool Reals Lra Lia Psatz List SpecFloat.
From Flocq Require Import Core BinarySingleNaN.
From Verif Require Import Num SF Res Arr ArrLemmas M_numpy M_label S_float P_float P_fl P_holds P_sum64 P_linear64 P_quad P_label P_quad64.
Import ListNotations.
Local Open Scope R_scope.

#[local] Existing Instance P_float.prec_pos.
#[local] Existing Instance P_float.prec_max.

Lemma rnd_nonneg x : 0 <= x -> 0 <= rnd x.
Proof. intros H. rewrite <- rnd_0. apply rnd_mono. exact H. Qed.
Lemma big_ok z : Rabs z <= 10 ^ 30 -> Rabs z <= big64.
Proof. intros H. apply (le_big _ 100); [|lia]. eapply Rle_trans; [exact H|]. simpl. lra. Qed.
Lemma eta_tiny : eta64 <= / 10 ^ 60 * u64.
Proof.
  replace u64 with (powerRZ 2 (-53)) by (rewrite u_is; simpl; lra). unfold eta64. replace (-1075)%Z with (-1022 + -53)%Z by lia. rewrite <- pow2_mul.
  apply Rmult_le_compat_r; [left; apply pow2_pos|]. apply Rle_trans with (powerRZ 2 (-300)); [apply pow2_le; lia|].
  replace (powerRZ 2 (-300)) with (/ powerRZ 2 300) by (rewrite <- powerRZ_neg'; reflexivity).
  apply Rinv_le_contravar; [apply pow_lt; lra|]. replace (powerRZ 2 300) with (IZR (2 ^ 300)) by (change 300%Z with (Z.of_nat 300); rewrite <- pow_IZR, pow_powerRZ; reflexivity).
  change 10 with (IZR 10). rewrite pow_IZR. apply IZR_le. vm_compute. discriminate.
Qed.

Section Points.
  Variables (a b dp : f64).
  Hypotheses (Fa : finite64 a) (Fb : finite64 b) (Fp : finite64 dp).
  Hypotheses (Ha : 0 <= fval a) (Hab : fval a <= fval b) (Hb : fval b <= 10000) (Hp : / 1000 <= fval dp <= 5000).
  Notation D := (fval b - fval a).

  Lemma width64 : finite64 (sub b a : f64) /\ 0 <= fval (sub b a : f64) /\ Rabs (fval (sub b a : f64) - D) <= u64 * D + eta64 /\ fval (sub b a : f64) <= 10001.
  Proof.
    pose proof u_is as U. assert (Es := eta_tiny).
    assert (D1 : Rabs D <= big64) by (apply big_ok; rewrite Rabs_pos_eq by lra; simpl; lra).
    destruct (sub_val b a Fb Fa (rnd_small _ D1)) as [F V]. change (sf_sub b a) with (sub b a) in *.
    assert (Er := rnd_err D). rewrite <- V, (Rabs_pos_eq D) in Er by lra. split; [exact F|]. split; [|split; [exact Er|]].
    - rewrite V. apply rnd_nonneg. lra.
    - apply abs_le_of in Er. assert (u64 * D <= u64 * 10000) by (apply Rmult_le_compat_l; [pose proof u64_pos; lra|lra]). rewrite U in *. lra.
  Qed.

  Lemma steps64 : exists (q : f64) m, sdiv (sub b a) dp = Ok q /\ isfinite q = true /\ (ceilZ q + 1 = Z.of_nat (S m))%Z
    /\ INR m <= 10000 / fval dp + 2 /\ ((2 <= m)%nat -> / 2000 <= D) /\ D <= fval dp * INR m + 10 ^ 4 * INR m * u64 * 5 + 10 ^ 5 * eta64.
  Proof.
    destruct width64 as (Fd & D0 & Vd & Dd). set (d := sub b a : f64) in *. clearbody d.
    pose proof u_is as U. assert (U0 := u64_pos). assert (E0 := eta64_pos). assert (Es := eta_tiny).
    set (p := fval dp) in *.
    assert (EZ : eqb dp zero = false) by (change (eqb dp zero) with (SFeqb dp (S754_zero false)); apply sf_eqb_zero; [exact Fp|fold p; lra]).
    set (r := fval d / p). assert (R0 : 0 <= r) by (apply Rmult_le_pos; [exact D0|left; apply Rinv_0_lt_compat; lra]).
    assert (Ed : fval d = r * p) by (unfold r; field; lra).
    assert (R1 : r <= 10001 * 1000).
    { unfold r, Rdiv. apply Rmult_le_compat; try lra; [left; apply Rinv_0_lt_compat; lra|]. replace 1000 with (/ / 1000) by lra. apply Rinv_le_contravar; lra. }
    assert (Rb : Rabs r <= big64) by (apply big_ok; rewrite Rabs_pos_eq by lra; simpl; lra).
    destruct (div_val d dp Fd Fp) as [Fq Vq]; [fold p; lra|fold p; fold r; apply rnd_small; exact Rb|]. fold p in Vq. fold r in Vq.
    change (sf_div d dp) with (div d dp) in *. set (q := div d dp : f64) in *.
    assert (Eq : sdiv d dp = Ok q) by (unfold sdiv; rewrite EZ; reflexivity). clearbody q.
    assert (Q0 : 0 <= fval q) by (rewrite Vq; apply rnd_nonneg; lra).
    assert (Vr := rnd_err r). rewrite <- Vq, (Rabs_pos_eq r) in Vr by lra. apply abs_le_of in Vr. apply abs_le_of in Vd.
    destruct (ceil_val q Fq) as [C1 C2].
    assert (CZ : (0 <= ceilZ q)%Z) by (apply le_IZR; lra).
    exists q, (Z.to_nat (ceilZ q)). split; [exact Eq|]. split; [change (isfinite q) with (sf_isfinite q); apply finite_isfinite; exact Fq|].
    split; [rewrite Nat2Z.inj_succ, Z2Nat.id by exact CZ; lia|].
    assert (EI : INR (Z.to_nat (ceilZ q)) = IZR (ceilZ q)) by (rewrite INR_IZR_INZ, Z2Nat.id by exact CZ; reflexivity). rewrite EI.
    set (M := IZR (ceilZ q)) in *. clearbody M.
    assert (UD : 0 <= u64 * D <= u64 * 10000) by (split; [apply Rmult_le_pos; lra|apply Rmult_le_compat_l; lra]).
    assert (Ur : 0 <= u64 * r <= / 1000) by (split; [apply Rmult_le_pos; lra|]; apply Rle_trans with (u64 * (10001 * 1000)); [apply Rmult_le_compat_l; lra|rewrite U; lra]).
    split; [|split].
    - assert (r <= 10000 / p + / 1000); [|rewrite U in *; lra].
      unfold r. apply Rmult_le_reg_r with p; [lra|]. unfold Rdiv. rewrite Rmult_plus_distr_r, !Rmult_assoc, !Rinv_l by lra. rewrite U in *. lra.
    - intros M2. assert (2 <= M) by (rewrite <- EI; change 2 with (INR 2); apply le_INR; exact M2).
      assert (R9 : 9 / 10 <= r) by (rewrite U in *; lra). assert (9 / 10 * p <= r * p) by (apply Rmult_le_compat_r; lra). rewrite U in *. lra.
    - (* r <= q (1 + 2 u) + 2 eta *)
      assert (Mr : r <= M + u64 * r + eta64) by lra.
      assert (rp : r * p <= M * p + u64 * (r * p) + eta64 * p).
      { replace (M * p + u64 * (r * p) + eta64 * p) with ((M + u64 * r + eta64) * p) by ring. apply Rmult_le_compat_r; lra. }
      rewrite <- Ed in rp. assert (ep : eta64 * p <= eta64 * 5000) by (apply Rmult_le_compat_l; lra).
      assert (ud : u64 * fval d <= u64 * 10001) by (apply Rmult_le_compat_l; lra).
      destruct (Req_dec M 0) as [->|M0].
      + rewrite Rmult_0_l in *. rewrite U in *. lra.
      + assert (1 <= M).
        { destruct (ceilZ q) eqn:EC in EI.
          - exfalso. apply M0. rewrite <- EI. reflexivity.
          - rewrite <- EI. change 1 with (INR 1). apply le_INR. lia.
          - lia. }
        assert (u64 * 1 <= u64 * M) by (apply Rmult_le_compat_l; lra). rewrite (Rmult_comm M p) in rp. nra.
  Qed.

  Variable m : nat.
  Hypothesis Hm : (1 <= m)%nat.
  Hypothesis Hm2 : (2 <= m)%nat -> / 2000 <= D.
  Hypothesis Hmb : INR m <= powerRZ 2 40.
  Definition pt (i : nat) : f64 := if Nat.eqb i m then b else add a (mul (of_nat i) (div (sub b a) (of_nat m))).

  Lemma stp : finite64 (div (sub b a) (of_nat m) : f64) /\ 0 <= fval (div (sub b a) (of_nat m) : f64)
    /\ Rabs (fval (div (sub b a) (of_nat m) : f64) - fval (sub b a : f64) / INR m) <= u64 * (fval (sub b a : f64) / INR m) + eta64.
  Proof.
    destruct width64 as (Fd & D0 & _ & Dd). set (d := sub b a : f64) in *. clearbody d.
    assert (M1 : 1 <= INR m) by (change 1 with (INR 1); apply le_INR; exact Hm).
    destruct (of_nat_val m) as [Fm Vm]; [eapply Rle_trans; [exact Hmb|apply pow2_le; lia]|].
    set (n := of_nat m : f64) in *. clearbody n.
    assert (R0 : 0 <= fval d / INR m) by (apply Rmult_le_pos; [exact D0|left; apply Rinv_0_lt_compat; lra]).
    assert (R1 : fval d / INR m <= 10001).
    { apply Rle_trans with (fval d / 1); [|lra]. unfold Rdiv. apply Rmult_le_compat_l; [exact D0|]. apply Rinv_le_contravar; lra. }
    destruct (div_val d n Fd Fm) as [F V]; [rewrite Vm; lra|rewrite Vm; apply rnd_small, big_ok; rewrite Rabs_pos_eq by lra; simpl; lra|].
    rewrite Vm in V. change (sf_div d n) with (div d n) in *. split; [exact F|]. rewrite V. split; [apply rnd_nonneg; exact R0|].
    eapply Rle_trans; [apply rnd_err|]. rewrite Rabs_pos_eq by exact R0. lra.
  Qed.

  Definition wt (i : nat) : R := rnd (INR i * fval (div (sub b a) (of_nat m) : f64)).
  Lemma wt_mono i j : (i <= j)%nat -> wt i <= wt j.
  Proof. intros H. apply rnd_mono. apply Rmult_le_compat_r; [apply stp|apply le_INR; exact H]. Qed.
  Lemma wt_0 : wt 0 = 0. Proof. unfold wt. cbn [INR]. rewrite Rmult_0_l. apply rnd_0. Qed.

  Lemma wt_spec i : (1 <= i)%nat -> (i < m)%nat -> Rabs (wt i - INR i * (D / INR m)) <= 33 / 10 * u64 * D /\ fval a <= fval a + wt i <= fval b.
  Proof.
    intros I1 I2. assert (D2 := Hm2 ltac:(lia)). destruct width64 as (Fd & D0 & Vd & Dd). destruct stp as (Fs & S0 & Vs).
    set (s := div (sub b a) (of_nat m) : f64) in *. unfold wt. fold s. clearbody s. set (d := sub b a : f64) in *. clearbody d.
    pose proof u_is as U. assert (U0 := u64_pos). assert (E0 := eta64_pos). assert (Es := eta_tiny).
    assert (N1 : 1 <= INR i) by (change 1 with (INR 1); apply le_INR; exact I1).
    assert (N2 : INR i + 1 <= INR m) by (rewrite <- S_INR; apply le_INR; lia).
    assert (P40 : powerRZ 2 40 = 1099511627776) by (simpl; lra).
    set (i' := INR i) in *. set (M := INR m) in *. set (x := i' / M).
    assert (X : 0 < x /\ x <= 1 - / M).
    { unfold x. split; [apply Rdiv_lt_0_compat; lra|]. apply Rmult_le_reg_r with M; [lra|]. unfold Rdiv. rewrite Rmult_minus_distr_r, Rmult_assoc, !Rinv_l by lra. lra. }
    assert (MI : / 1099511627776 <= / M) by (apply Rinv_le_contravar; lra).
    assert (EM : i' * eta64 <= / 1000 * (u64 * D)).
    { apply Rle_trans with (1099511627776 * (/ 10 ^ 60 * u64)); [apply Rmult_le_compat; lra|].
      apply Rle_trans with (/ 1000 * (u64 * / 2000)); [rewrite U; simpl; lra|]. apply Rmult_le_compat_l; [lra|]. apply Rmult_le_compat_l; lra. }
    assert (uD : 0 <= u64 * D) by (apply Rmult_le_pos; lra).
    assert (e1 : eta64 <= / 1000 * (u64 * D)) by (apply Rle_trans with (i' * eta64); [|exact EM]; rewrite <- (Rmult_1_l eta64) at 1; apply Rmult_le_compat_r; lra).
    assert (uDs : u64 * D <= / 1000000 * D) by (apply Rmult_le_compat_r; [lra|rewrite U; lra]).
    assert (dD : Rabs (fval d) <= 1001 / 1000 * D) by (rewrite Rabs_pos_eq by exact D0; apply abs_le_of in Vd; lra).
    rewrite Rabs_pos_eq in dD by exact D0.
    assert (E1 : Rabs (i' * fval s - x * D) <= 21 / 10 * (u64 * D)).
    { replace (i' * fval s - x * D) with (i' * (fval s - fval d / M) + x * (fval d - D)) by (unfold x; field; lra).
      eapply Rle_trans; [apply Rabs_triang|]. rewrite !Rabs_mult, (Rabs_pos_eq i'), (Rabs_pos_eq x) by lra.
      assert (A1 : i' * Rabs (fval s - fval d / M) <= i' * (u64 * (fval d / M) + eta64)) by (apply Rmult_le_compat_l; lra).
      replace (i' * (u64 * (fval d / M) + eta64)) with (x * (u64 * fval d) + i' * eta64) in A1 by (unfold x; field; lra).
      assert (A2 : x * (u64 * fval d) <= 1 * (u64 * (1001 / 1000 * D))).
      { apply Rmult_le_compat; try lra; [apply Rmult_le_pos; lra|apply Rmult_le_compat_l; lra]. }
      assert (A3 : x * Rabs (fval d - D) <= 1 * (u64 * D + eta64)) by (apply Rmult_le_compat; try lra; apply Rabs_pos). lra. }
    assert (XD : 0 <= x * D <= D - / M * D) by (split; [apply Rmult_le_pos; lra|]; replace (D - / M * D) with ((1 - / M) * D) by ring; apply Rmult_le_compat_r; lra).
    assert (IM : / M * D >= / 1099511627776 * D) by (apply Rle_ge, Rmult_le_compat_r; lra).
    apply abs_le_of in E1 as E1'. assert (P0 : 0 <= i' * fval s) by (apply Rmult_le_pos; lra).
    assert (Er := rnd_err (i' * fval s)). rewrite (Rabs_pos_eq (i' * fval s)) in Er by exact P0.
    assert (Eu : u64 * (i' * fval s) <= u64 * (1001 / 1000 * D)) by (apply Rmult_le_compat_l; lra).
    assert (W : Rabs (rnd (i' * fval s) - x * D) <= 33 / 10 * u64 * D).
    { replace (rnd (i' * fval s) - x * D) with ((rnd (i' * fval s) - i' * fval s) + (i' * fval s - x * D)) by ring. eapply Rle_trans; [apply Rabs_triang|]. lra. }
    replace (i' * (D / M)) with (x * D) by (unfold x; field; lra). split; [exact W|].
    apply abs_le_of in W. assert (33 / 10 * u64 * D <= / 1099511627776 * D) by (apply Rmult_le_compat_r; [lra|rewrite U; lra]).
    split; [pose proof (rnd_nonneg _ P0); lra|lra].
  Qed.

  Lemma pt_val i : (i < m)%nat -> finite64 (pt i) /\ fval (pt i) = rnd (fval a + wt i) /\ fval a <= fval (pt i) <= fval b.
  Proof.
    intros Hi. unfold pt. destruct (Nat.eqb_spec i m); [lia|].
    assert (W : fval a <= fval a + wt i <= fval b).
    { destruct i as [|i]; [rewrite wt_0; lra|]. apply wt_spec; lia. }
    destruct stp as (Fs & S0 & _). set (s := div (sub b a) (of_nat m) : f64) in *.
    destruct (of_nat_val i) as [Fi Vi]; [apply Rle_trans with (INR m); [apply le_INR; lia|eapply Rle_trans; [exact Hmb|apply pow2_le; lia]]|].
    set (k := of_nat i : f64) in *. clearbody k.
    assert (Wb : 0 <= wt i <= 10000) by lra.
    destruct (mul_val k s Fi Fs) as [Fw Vw].
    { rewrite Vi. fold (wt i). apply Rabs_lt. pose proof (bpow_gt_0 radix2 1024).
      assert (20000 < bpow radix2 1024) by (apply Rlt_trans with (bpow radix2 20); [simpl; lra|apply bpow_lt; lia]).
      change (rnd (INR i * fval s)) with (wt i). lra. }
    change (sf_mul k s) with (mul k s) in *. rewrite Vi in Vw. change (rnd (INR i * fval s)) with (wt i) in Vw. set (w := mul k s : f64) in *. clearbody w.
    destruct (rnd_between a b (fval a + wt i) Fa Fb W) as [B1 B2]. rewrite <- Vw in B2, B1 |- *.
    destruct (add_val a w Fa Fw B2) as [Fr Vr]. change (sf_add a w) with (add a w) in *. split; [exact Fr|]. split; [exact Vr|]. rewrite Vr. exact B1.
  Qed.
  Lemma pt_last : pt m = b. Proof. unfold pt. rewrite Nat.eqb_refl. reflexivity. Qed.
  Lemma pt_first : fval (pt 0) = fval a.
  Proof. destruct (pt_val 0 ltac:(lia)) as (_ & -> & _). rewrite wt_0, Rplus_0_r. apply rnd_fval. exact Fa. Qed.
  Lemma pt_in i : (i <= m)%nat -> finite64 (pt i) /\ fval a <= fval (pt i) <= fval b.
  Proof.
    intros Hi. destruct (Nat.eq_dec i m) as [->|]; [rewrite pt_last; split; [exact Fb|lra]|]. destruct (pt_val i ltac:(lia)) as (A & _ & B). split; assumption.
  Qed.
  Lemma pt_near i : (i <= m)%nat -> Rabs (fval (pt i) - (fval a + INR i * (D / INR m))) <= 44000 * u64.
  Proof.
    intros Hi. assert (U0 := u64_pos). assert (M1 : 1 <= INR m) by (change 1 with (INR 1); apply le_INR; exact Hm).
    destruct (Nat.eq_dec i m) as [->|].
    - rewrite pt_last. replace (fval b - _) with 0 by (field; lra). rewrite Rabs_R0. lra.
    - destruct (Nat.eq_dec i 0) as [->|].
      + rewrite pt_first. cbn [INR]. replace (_ - _) with 0 by ring. rewrite Rabs_R0. lra.
      + destruct (pt_val i ltac:(lia)) as (_ & -> & _). destruct (wt_spec i ltac:(lia) ltac:(lia)) as [W [_ W2]].
        assert (Er := rnd_err (fval a + wt i)). assert (Es := eta_tiny). assert (W0 : 0 <= wt i) by (rewrite <- wt_0; apply wt_mono; lia).
        rewrite (Rabs_pos_eq (fval a + wt i)) in Er by lra.
        assert (u64 * (fval a + wt i) <= u64 * 10000) by (apply Rmult_le_compat_l; lra).
        assert (33 / 10 * u64 * D <= 33 / 10 * u64 * 10000) by (apply Rmult_le_compat_l; lra).
        set (t := INR i * (D / INR m)) in *.
        replace (rnd (fval a + wt i) - (fval a + t)) with ((rnd (fval a + wt i) - (fval a + wt i)) + (wt i - t)) by ring.
        eapply Rle_trans; [apply Rabs_triang|]. simpl in Es. lra.
  Qed.
  Lemma pt_mono i : (i < m)%nat -> fval (pt i) <= fval (pt (S i)).
  Proof.
    intros Hi. destruct (Nat.eq_dec (S i) m) as [E|N].
    - rewrite E, pt_last. apply pt_in. lia.
    - destruct (pt_val i Hi) as (_ & -> & _). destruct (pt_val (S i) ltac:(lia)) as (_ & -> & _). apply rnd_mono. pose proof (wt_mono i (S i) ltac:(lia)). lra.
  Qed.
End Points.

(** the points of linspace: n of them, increasing from a to b by at most a little over dp *)
Lemma linspace64 (a b dp : f64) : finite64 a -> finite64 b -> finite64 dp -> 0 <= fval a -> fval a <= fval b -> fval b <= 10000 -> / 1000 <= fval dp <= 5000 ->
  exists (q : f64) m, sdiv (sub b a) dp = Ok q /\ isfinite q = true /\ (ceilZ q + 1 = Z.of_nat (S m))%Z /\ INR m <= 10000 / fval dp + 2 /\ INR m <= powerRZ 2 40
    /\ length (linspace a b (S m)) = S m /\ Forall (fun x => finite64 x /\ fval a <= fval x <= fval b) (linspace a b (S m))
    /\ chain (fval dp * (1 + powerRZ 2 (-20))) (map fval (linspace a b (S m)))
    /\ exists l, map fval (linspace a b (S m)) = fval a :: l
    /\ (last (fval a :: l) (fval a) = fval b \/ (m = 0%nat /\ fval b - fval a <= powerRZ 2 (-1000))).
Proof.
  intros Fa Fb Fp Ha Hab Hb Hp. destruct (steps64 a b dp Fa Fb Fp Ha Hab Hb Hp) as (q & m & Eq & Fq & Cq & Mq & M2 & Md).
  assert (P40 : powerRZ 2 40 = 1099511627776) by (simpl; lra).
  assert (MB : INR m <= powerRZ 2 40).
  { eapply Rle_trans; [exact Mq|]. assert (10000 / fval dp <= 10000 * 1000); [|lra]. unfold Rdiv. apply Rmult_le_compat_l; [lra|].
    replace 1000 with (/ / 1000) by lra. apply Rinv_le_contravar; lra. }
  exists q, m. split; [exact Eq|]. split; [exact Fq|]. split; [exact Cq|]. split; [exact Mq|]. split; [exact MB|].
  destruct m as [|m'].
  - cbn [linspace]. split; [reflexivity|]. split; [constructor; [split; [exact Fa|lra]|constructor]|]. split; [exact I|].
    exists []. split; [reflexivity|]. right. split; [reflexivity|]. eapply Rle_trans; [exact Md|]. cbn [INR]. rewrite !Rmult_0_r, !Rmult_0_l.
    unfold eta64. apply Rle_trans with (powerRZ 2 20 * powerRZ 2 (-1075)).
    + rewrite !Rplus_0_l. apply Rmult_le_compat_r; [left; apply pow2_pos|]. simpl. lra.
    + rewrite pow2_mul. apply pow2_le. lia.
  - set (m := S m') in *. assert (Hm : (1 <= m)%nat) by (unfold m; lia).
    assert (EL : linspace a b (S m) = map (pt a b m) (seq 0 (S m))) by reflexivity. rewrite EL, map_map, map_length, seq_length.
    split; [reflexivity|]. split.
    { apply Forall_forall. intros x Hx. apply in_map_iff in Hx. destruct Hx as (i & <- & Hi). apply in_seq in Hi. apply pt_in; trivial. lia. }
    split.
    { apply chain_map. intros i _ Hi. assert (I2 : (i < m)%nat) by lia.
      assert (T1 := pt_mono a b Fa Fb Ha Hab Hb m Hm M2 MB i I2).
      assert (T2 := pt_near a b Fa Fb Ha Hab Hb m Hm M2 MB i ltac:(lia)). assert (T3 := pt_near a b Fa Fb Ha Hab Hb m Hm M2 MB (S i) ltac:(lia)).
      split; [lra|]. apply abs_le_of in T2. apply abs_le_of in T3. rewrite S_INR in T3.
      assert (M1 : 1 <= INR m) by (change 1 with (INR 1); apply le_INR; exact Hm).
      set (D := fval b - fval a) in *. set (M := INR m) in *.
      assert (DM : D / M <= fval dp + 10 ^ 4 * u64 * 5 + 10 ^ 5 * eta64).
      { apply Rmult_le_reg_r with M; [lra|]. unfold Rdiv. rewrite Rmult_assoc, Rinv_l, Rmult_1_r by lra.
        assert (10 ^ 5 * eta64 * 1 <= 10 ^ 5 * eta64 * M) by (apply Rmult_le_compat_l; [pose proof eta64_pos; simpl; lra|lra]). lra. }
      assert (Es := eta_tiny). pose proof u_is as U. assert (P20 : powerRZ 2 (-20) = / 1048576) by (simpl; lra).
      assert (/ 1000 * powerRZ 2 (-20) <= fval dp * powerRZ 2 (-20)) by (apply Rmult_le_compat_r; lra).
      rewrite U in *. simpl in DM, Es. lra. }
    exists (map (fun x => fval (pt a b m x)) (seq 1 m)). split.
    + cbn [seq map]. rewrite (pt_first a b Fa Fb Ha Hab Hb m Hm M2 MB). reflexivity.
    + left. assert (E0 := pt_first a b Fa Fb Ha Hab Hb m Hm M2 MB).
      transitivity (last (map (fun x => fval (pt a b m x)) (seq 0 (S m))) (fval a)); [cbn [seq map]; rewrite E0; reflexivity|].
      rewrite last_map_seq. cbn [Nat.add]. rewrite pt_last. reflexivity.
Qed.
