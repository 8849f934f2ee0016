(** * TEOS-10 specific volume: the code is the tables *)
From Coq Require Import ZArith Reals Lra Lia List.
From Verif Require Import Num Res M_eos_base M_gsw S_eos P_eos P_jmd95 P_gsw.
Import ListNotations.
Open Scope R_scope.

Ltac unf_v :=
  unfold v000, v001, v002, v003, v004, v005, v006, v010, v011, v012, v013, v014, v020, v021, v022,
      v023, v030, v031, v032, v040, v041, v042, v050, v051, v060, v100, v101, v102, v103, v104,
      v110, v111, v112, v113, v120, v121, v122, v130, v131, v132, v140, v141, v150, v200, v201,
      v202, v203, v210, v211, v212, v220, v221, v222, v230, v231, v240, v300, v301, v302, v310,
      v311, v312, v320, v321, v330, v400, v401, v402, v410, v411, v420, v500, v501, v510, v600.

Lemma Rlit_q : forall m, Rlit m (-1) = IZR m / 10 /\ Rlit m (-2) = IZR m / 100 /\
  Rlit m (-3) = IZR m / 1000.
Proof. intro m. unfold Rlit. cbn. repeat split; reflexivity. Qed.
Lemma Rlit_q1 : forall m, Rlit m (-1) = IZR m / 10.
Proof. apply Rlit_q. Qed.
Lemma Rlit_q2 : forall m, Rlit m (-2) = IZR m / 100.
Proof. apply Rlit_q. Qed.
Lemma Rlit_q3 : forall m, Rlit m (-3) = IZR m / 1000.
Proof. apply Rlit_q. Qed.

Lemma sfac_sf : @sfac R _ = sf.
Proof. exact (Rlit_dec _ _). Qed.
Lemma tfac_tf : @tfac R _ = tf.
Proof. exact (Rlit_dec _ _). Qed.
Lemma pfac_pf : @pfac R _ = pf.
Proof. exact (Rlit_dec _ _). Qed.

(** exact small factors; everything else is an atom *)
Ltac tables :=
  unf_v; ru; rewrite ?sfac_sf, ?tfac_tf, ?pfac_pf; cbn [D Nat.iter nat_rect pow];
  unfold teos_terms, poly; cbn [fold_right map d1 d2 d3 pred INR];
  rewrite ?Rlit_n, ?Rlit_q1, ?Rlit_q2, ?Rlit_q3, ?Rlit_dec.

Section GSW.
  Variable dv : R -> R -> res R.
  Hypothesis Hdv : forall a b, b <> 0 -> dv a b = Ok (a / b).

  Ltac leaf :=
    repeat (rewrite Hdv; [cbn [bind]|solve [assumption | lra]]);
    f_equal; tables; field; assumption.

  Lemma leaf_specvol : forall x y z, x <> 0 ->
    gsw__specvol x y z =
    Ok (D 0 (Nat.iter 0 d3 (Nat.iter 0 d2 teos_terms)) x y z * sf ^ 0 * tf ^ 0 * pf ^ 0).
  Proof.
    intros x y z Hx. unfold gsw__specvol. ru. rewrite ?Rlit_n.
    assert (Hx3 : x * (x * x) <> 0) by (repeat apply Rmult_integral_contrapositive_currified; assumption).
    assert (Hx5 : x * (x * x) * (x * x) <> 0) by (repeat apply Rmult_integral_contrapositive_currified; assumption).
    leaf.
  Qed.

  Lemma leaf_s : forall x y z, x <> 0 ->
    gsw__s dv x y z =
    Ok (D 1 (Nat.iter 0 d3 (Nat.iter 0 d2 teos_terms)) x y z * sf ^ 1 * tf ^ 0 * pf ^ 0).
  Proof.
    intros x y z Hx. unfold gsw__s. ru. rewrite ?Rlit_n.
    assert (Hx3 : x * (x * x) <> 0) by (repeat apply Rmult_integral_contrapositive_currified; assumption).
    assert (Hx5 : x * (x * x) * (x * x) <> 0) by (repeat apply Rmult_integral_contrapositive_currified; assumption).
    leaf.
  Qed.

  Lemma leaf_t : forall x y z, x <> 0 ->
    gsw__t x y z =
    Ok (D 0 (Nat.iter 0 d3 (Nat.iter 1 d2 teos_terms)) x y z * sf ^ 0 * tf ^ 1 * pf ^ 0).
  Proof.
    intros x y z Hx. unfold gsw__t. ru. rewrite ?Rlit_n.
    assert (Hx3 : x * (x * x) <> 0) by (repeat apply Rmult_integral_contrapositive_currified; assumption).
    assert (Hx5 : x * (x * x) * (x * x) <> 0) by (repeat apply Rmult_integral_contrapositive_currified; assumption).
    leaf.
  Qed.

  Lemma leaf_p : forall x y z, x <> 0 ->
    gsw__p x y z =
    Ok (D 0 (Nat.iter 1 d3 (Nat.iter 0 d2 teos_terms)) x y z * sf ^ 0 * tf ^ 0 * pf ^ 1).
  Proof.
    intros x y z Hx. unfold gsw__p. ru. rewrite ?Rlit_n.
    assert (Hx3 : x * (x * x) <> 0) by (repeat apply Rmult_integral_contrapositive_currified; assumption).
    assert (Hx5 : x * (x * x) * (x * x) <> 0) by (repeat apply Rmult_integral_contrapositive_currified; assumption).
    leaf.
  Qed.

  Lemma leaf_ss : forall x y z, x <> 0 ->
    gsw__ss dv x y z (x * x) =
    Ok (D 2 (Nat.iter 0 d3 (Nat.iter 0 d2 teos_terms)) x y z * sf ^ 2 * tf ^ 0 * pf ^ 0).
  Proof.
    intros x y z Hx. unfold gsw__ss. ru. rewrite ?Rlit_n.
    assert (Hx3 : x * (x * x) <> 0) by (repeat apply Rmult_integral_contrapositive_currified; assumption).
    assert (Hx5 : x * (x * x) * (x * x) <> 0) by (repeat apply Rmult_integral_contrapositive_currified; assumption).
    leaf.
  Qed.

  Lemma leaf_st : forall x y z, x <> 0 ->
    gsw__st dv x y z =
    Ok (D 1 (Nat.iter 0 d3 (Nat.iter 1 d2 teos_terms)) x y z * sf ^ 1 * tf ^ 1 * pf ^ 0).
  Proof.
    intros x y z Hx. unfold gsw__st. ru. rewrite ?Rlit_n.
    assert (Hx3 : x * (x * x) <> 0) by (repeat apply Rmult_integral_contrapositive_currified; assumption).
    assert (Hx5 : x * (x * x) * (x * x) <> 0) by (repeat apply Rmult_integral_contrapositive_currified; assumption).
    leaf.
  Qed.

  Lemma leaf_tt : forall x y z, x <> 0 ->
    gsw__tt x y z =
    Ok (D 0 (Nat.iter 0 d3 (Nat.iter 2 d2 teos_terms)) x y z * sf ^ 0 * tf ^ 2 * pf ^ 0).
  Proof.
    intros x y z Hx. unfold gsw__tt. ru. rewrite ?Rlit_n.
    assert (Hx3 : x * (x * x) <> 0) by (repeat apply Rmult_integral_contrapositive_currified; assumption).
    assert (Hx5 : x * (x * x) * (x * x) <> 0) by (repeat apply Rmult_integral_contrapositive_currified; assumption).
    leaf.
  Qed.

  Lemma leaf_sp : forall x y z, x <> 0 ->
    gsw__sp dv x y z =
    Ok (D 1 (Nat.iter 1 d3 (Nat.iter 0 d2 teos_terms)) x y z * sf ^ 1 * tf ^ 0 * pf ^ 1).
  Proof.
    intros x y z Hx. unfold gsw__sp. ru. rewrite ?Rlit_n.
    assert (Hx3 : x * (x * x) <> 0) by (repeat apply Rmult_integral_contrapositive_currified; assumption).
    assert (Hx5 : x * (x * x) * (x * x) <> 0) by (repeat apply Rmult_integral_contrapositive_currified; assumption).
    leaf.
  Qed.

  Lemma leaf_tp : forall x y z, x <> 0 ->
    gsw__tp x y z =
    Ok (D 0 (Nat.iter 1 d3 (Nat.iter 1 d2 teos_terms)) x y z * sf ^ 0 * tf ^ 1 * pf ^ 1).
  Proof.
    intros x y z Hx. unfold gsw__tp. ru. rewrite ?Rlit_n.
    assert (Hx3 : x * (x * x) <> 0) by (repeat apply Rmult_integral_contrapositive_currified; assumption).
    assert (Hx5 : x * (x * x) * (x * x) <> 0) by (repeat apply Rmult_integral_contrapositive_currified; assumption).
    leaf.
  Qed.

  Lemma leaf_pp : forall x y z, x <> 0 ->
    gsw__pp x y z =
    Ok (D 0 (Nat.iter 2 d3 (Nat.iter 0 d2 teos_terms)) x y z * sf ^ 0 * tf ^ 0 * pf ^ 2).
  Proof.
    intros x y z Hx. unfold gsw__pp. ru. rewrite ?Rlit_n.
    assert (Hx3 : x * (x * x) <> 0) by (repeat apply Rmult_integral_contrapositive_currified; assumption).
    assert (Hx5 : x * (x * x) * (x * x) <> 0) by (repeat apply Rmult_integral_contrapositive_currified; assumption).
    leaf.
  Qed.

  Lemma leaf_sss : forall x y z, x <> 0 ->
    gsw__sss dv x y z (x * x) =
    Ok (D 3 (Nat.iter 0 d3 (Nat.iter 0 d2 teos_terms)) x y z * sf ^ 3 * tf ^ 0 * pf ^ 0).
  Proof.
    intros x y z Hx. unfold gsw__sss. ru. rewrite ?Rlit_n.
    assert (Hx3 : x * (x * x) <> 0) by (repeat apply Rmult_integral_contrapositive_currified; assumption).
    assert (Hx5 : x * (x * x) * (x * x) <> 0) by (repeat apply Rmult_integral_contrapositive_currified; assumption).
    leaf.
  Qed.

  Lemma leaf_sst : forall x y z, x <> 0 ->
    gsw__sst dv x y z (x * x) =
    Ok (D 2 (Nat.iter 0 d3 (Nat.iter 1 d2 teos_terms)) x y z * sf ^ 2 * tf ^ 1 * pf ^ 0).
  Proof.
    intros x y z Hx. unfold gsw__sst. ru. rewrite ?Rlit_n.
    assert (Hx3 : x * (x * x) <> 0) by (repeat apply Rmult_integral_contrapositive_currified; assumption).
    assert (Hx5 : x * (x * x) * (x * x) <> 0) by (repeat apply Rmult_integral_contrapositive_currified; assumption).
    leaf.
  Qed.

  Lemma leaf_stt : forall x y z, x <> 0 ->
    gsw__stt dv x y z =
    Ok (D 1 (Nat.iter 0 d3 (Nat.iter 2 d2 teos_terms)) x y z * sf ^ 1 * tf ^ 2 * pf ^ 0).
  Proof.
    intros x y z Hx. unfold gsw__stt. ru. rewrite ?Rlit_n.
    assert (Hx3 : x * (x * x) <> 0) by (repeat apply Rmult_integral_contrapositive_currified; assumption).
    assert (Hx5 : x * (x * x) * (x * x) <> 0) by (repeat apply Rmult_integral_contrapositive_currified; assumption).
    leaf.
  Qed.

  Lemma leaf_ttt : forall x y z, x <> 0 ->
    gsw__ttt x y z =
    Ok (D 0 (Nat.iter 0 d3 (Nat.iter 3 d2 teos_terms)) x y z * sf ^ 0 * tf ^ 3 * pf ^ 0).
  Proof.
    intros x y z Hx. unfold gsw__ttt. ru. rewrite ?Rlit_n.
    assert (Hx3 : x * (x * x) <> 0) by (repeat apply Rmult_integral_contrapositive_currified; assumption).
    assert (Hx5 : x * (x * x) * (x * x) <> 0) by (repeat apply Rmult_integral_contrapositive_currified; assumption).
    leaf.
  Qed.

  Lemma leaf_ssp : forall x y z, x <> 0 ->
    gsw__ssp dv x y z (x * x) =
    Ok (D 2 (Nat.iter 1 d3 (Nat.iter 0 d2 teos_terms)) x y z * sf ^ 2 * tf ^ 0 * pf ^ 1).
  Proof.
    intros x y z Hx. unfold gsw__ssp. ru. rewrite ?Rlit_n.
    assert (Hx3 : x * (x * x) <> 0) by (repeat apply Rmult_integral_contrapositive_currified; assumption).
    assert (Hx5 : x * (x * x) * (x * x) <> 0) by (repeat apply Rmult_integral_contrapositive_currified; assumption).
    leaf.
  Qed.

  Lemma leaf_stp : forall x y z, x <> 0 ->
    gsw__stp dv x y z =
    Ok (D 1 (Nat.iter 1 d3 (Nat.iter 1 d2 teos_terms)) x y z * sf ^ 1 * tf ^ 1 * pf ^ 1).
  Proof.
    intros x y z Hx. unfold gsw__stp. ru. rewrite ?Rlit_n.
    assert (Hx3 : x * (x * x) <> 0) by (repeat apply Rmult_integral_contrapositive_currified; assumption).
    assert (Hx5 : x * (x * x) * (x * x) <> 0) by (repeat apply Rmult_integral_contrapositive_currified; assumption).
    leaf.
  Qed.

  Lemma leaf_ttp : forall x y z, x <> 0 ->
    gsw__ttp x y z =
    Ok (D 0 (Nat.iter 1 d3 (Nat.iter 2 d2 teos_terms)) x y z * sf ^ 0 * tf ^ 2 * pf ^ 1).
  Proof.
    intros x y z Hx. unfold gsw__ttp. ru. rewrite ?Rlit_n.
    assert (Hx3 : x * (x * x) <> 0) by (repeat apply Rmult_integral_contrapositive_currified; assumption).
    assert (Hx5 : x * (x * x) * (x * x) <> 0) by (repeat apply Rmult_integral_contrapositive_currified; assumption).
    leaf.
  Qed.

  Lemma leaf_spp : forall x y z, x <> 0 ->
    gsw__spp dv x y z =
    Ok (D 1 (Nat.iter 2 d3 (Nat.iter 0 d2 teos_terms)) x y z * sf ^ 1 * tf ^ 0 * pf ^ 2).
  Proof.
    intros x y z Hx. unfold gsw__spp. ru. rewrite ?Rlit_n.
    assert (Hx3 : x * (x * x) <> 0) by (repeat apply Rmult_integral_contrapositive_currified; assumption).
    assert (Hx5 : x * (x * x) * (x * x) <> 0) by (repeat apply Rmult_integral_contrapositive_currified; assumption).
    leaf.
  Qed.

  Lemma leaf_tpp : forall x y z, x <> 0 ->
    gsw__tpp x y z =
    Ok (D 0 (Nat.iter 2 d3 (Nat.iter 1 d2 teos_terms)) x y z * sf ^ 0 * tf ^ 1 * pf ^ 2).
  Proof.
    intros x y z Hx. unfold gsw__tpp. ru. rewrite ?Rlit_n.
    assert (Hx3 : x * (x * x) <> 0) by (repeat apply Rmult_integral_contrapositive_currified; assumption).
    assert (Hx5 : x * (x * x) * (x * x) <> 0) by (repeat apply Rmult_integral_contrapositive_currified; assumption).
    leaf.
  Qed.

  Lemma leaf_ppp : forall x y z, x <> 0 ->
    gsw__ppp x y z =
    Ok (D 0 (Nat.iter 3 d3 (Nat.iter 0 d2 teos_terms)) x y z * sf ^ 0 * tf ^ 0 * pf ^ 3).
  Proof.
    intros x y z Hx. unfold gsw__ppp. ru. rewrite ?Rlit_n.
    assert (Hx3 : x * (x * x) <> 0) by (repeat apply Rmult_integral_contrapositive_currified; assumption).
    assert (Hx5 : x * (x * x) * (x * x) <> 0) by (repeat apply Rmult_integral_contrapositive_currified; assumption).
    leaf.
  Qed.

End GSW.
