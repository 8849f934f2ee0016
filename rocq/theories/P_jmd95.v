(** * Jackett and McDougall (1995): values and derivatives *)
From Coq Require Import ZArith Reals Lra Lia List.
From Verif Require Import Num Res M_eos_base M_jmd95 S_eos P_eos.
Import ListNotations.
Open Scope R_scope.

Lemma Rlit_n : forall m, Rlit m 0 = IZR m.
Proof. intro m. unfold Rlit. cbn. ring. Qed.
Lemma Rlit_15 : Rlit 15 (-1) = 3 / 2.
Proof. unfold Rlit. cbn. lra. Qed.

Lemma sqrt_var : forall s, 0 <= s -> exists q, sqrt s = q /\ s = q * q /\ 0 <= q.
Proof.
  intros s Hs. exists (sqrt s). repeat split; [|apply sqrt_pos].
  symmetry. apply sqrt_sqrt. exact Hs.
Qed.

Ltac ru := cbn [add sub mul div opp fsqrt lit RNum fpow one].

(** close an identity between a Horner form and a table *)
Ltac horner :=
  unfold poly; cbn [fold_right map d1 d2 d3 pred INR]; rewrite ?Rlit_15, ?Rlit_n, ?Rlit_dec.

Section JM.
  Variable dv : R -> R -> res R.
  Hypothesis Hdv : forall a b, b <> 0 -> dv a b = Ok (a / b).

  Lemma jm_den : forall s t p, jm_dom s t p -> 1 - p / jm_K s t p <> 0.
  Proof.
    intros s t p (_ & H0 & Hp) E. apply Hp. apply (Rmult_eq_compat_r (jm_K s t p)) in E.
    replace ((1 - p / jm_K s t p) * jm_K s t p) with (jm_K s t p - p) in E by (field; exact H0).
    lra.
  Qed.

  Lemma jmd95_value : forall s t p, jm_dom s t p -> jmd95_rho dv s t p = Ok (jm_rho s t p).
  Proof.
    intros s t p Hd. pose proof (jm_den _ _ _ Hd) as H1. destruct Hd as (Hs & H0 & Hp).
    unfold jmd95_rho. ru.
    match goal with |- context [dv p ?K] =>
      assert (HK : K = jm_K s t p) end.
    { unfold jm_K, jm_K_terms. destruct (sqrt_var s Hs) as (q & -> & -> & _). horner. ring. }
    rewrite HK, Hdv by exact H0. cbn [bind].
    match goal with |- context [dv ?a ?b] =>
      assert (HR : a = jm_rho0 s t); [|assert (Hb : b = 1 - p / jm_K s t p)] end.
    { unfold jm_rho0, jm_rho0_terms. destruct (sqrt_var s Hs) as (q & -> & -> & _). horner. ring. }
    { rewrite Rlit_n. reflexivity. }
    rewrite HR, Hb, Hdv by exact H1. reflexivity.
  Qed.

  Lemma quotient_s : forall (A K : R -> R) p s a k,
    derivable_pt_lim A s a -> derivable_pt_lim K s k -> K s <> 0 -> K s <> p ->
    derivable_pt_lim (fun s => A s / (1 - p / K s)) s ((a * K s - A s * p / (K s - p) * k) / (K s - p)).
  Proof.
    intros A K p s a k HA HK H0 Hp.
    assert (H1 : 1 - p / K s <> 0).
    { intro E. apply (Rmult_eq_compat_r (K s)) in E.
      replace ((1 - p / K s) * K s) with (K s - p) in E by (field; exact H0). lra. }
    eapply lim_eq.
    - apply lim_div; [exact HA| |exact H1].
      apply (lim_ext (fun s => 1 + - p * (1 / K s))); [intro; unfold Rdiv; ring|].
      apply lim_add; [apply lim_const|].
      apply lim_scal. apply lim_div; [apply lim_const|exact HK|exact H0].
    - unfold Rsqr. field. repeat split; lra.
  Qed.

  Lemma quotient_p : forall (K : R -> R) r p k,
    derivable_pt_lim K p k -> K p <> 0 -> K p <> p ->
    derivable_pt_lim (fun p => r / (1 - p / K p)) p (r * (K p - p * k) / ((K p - p) * (K p - p))).
  Proof.
    intros K r p k HK H0 Hp.
    assert (H1 : 1 - p / K p <> 0).
    { intro E. apply (Rmult_eq_compat_r (K p)) in E.
      replace ((1 - p / K p) * K p) with (K p - p) in E by (field; exact H0). lra. }
    eapply lim_eq.
    - apply lim_div; [apply lim_const| |exact H1].
      apply (lim_ext (fun p => 1 + -1 * (p / K p))); [intro; unfold Rdiv; ring|].
      apply lim_add; [apply lim_const|].
      apply lim_scal. apply lim_div; [apply lim_id|exact HK|exact H0].
    - unfold Rsqr. field. repeat split; lra.
  Qed.

  Lemma jmd95_s_t : forall s t p, 0 < s -> jm_dom s t p ->
    exists rs rt, jmd95_rho_s_t dv s t p = Ok (rs, rt) /\
      diff_s jm_rho s t p rs /\ diff_t jm_rho s t p rt.
  Proof.
    intros s t p Hs Hd. destruct Hd as (Hs' & H0 & Hp).
    assert (Hq : 0 < sqrt s) by (apply sqrt_lt_R0; exact Hs).
    assert (HKp : jm_K s t p - p <> 0) by lra.
    unfold jmd95_rho_s_t, eosJMDCKFw0, eosJMDCKFw1, eosJMDCKFw2, eosJMDCKFw3, eosJMDCKFw4,
      eosJMDCKSw0, eosJMDCKSw1, eosJMDCKSw2, eosJMDCKSw3, eosJMDCKSw4, eosJMDCKSw5, eosJMDCKSw6,
      eosJMDCKP0, eosJMDCKP1, eosJMDCKP2, eosJMDCKP3, eosJMDCKP4, eosJMDCKP5, eosJMDCKP6,
      eosJMDCKP7, eosJMDCKP8, eosJMDCKP9, eosJMDCKP10, eosJMDCKP11, eosJMDCKP12, eosJMDCKP13,
      eosJMDCFw0, eosJMDCFw1, eosJMDCFw2, eosJMDCFw3, eosJMDCFw4, eosJMDCFw5,
      eosJMDCSw0, eosJMDCSw1, eosJMDCSw2, eosJMDCSw3, eosJMDCSw4, eosJMDCSw5, eosJMDCSw6,
      eosJMDCSw7, eosJMDCSw8. ru.
    match goal with |- context [dv ?a (?K - p)] => 
      assert (HK : K = jm_K s t p); [|rewrite HK; clear HK] end.
    { unfold jm_K, jm_K_terms. destruct (sqrt_var s Hs') as (q & -> & -> & _). horner. ring. }
    match goal with |- context [dv (?a * p) (_ - p)] =>
      assert (HR : a = jm_rho0 s t); [|rewrite !HR; clear HR] end.
    { unfold jm_rho0, jm_rho0_terms. destruct (sqrt_var s Hs') as (q & -> & -> & _). horner. ring. }
    rewrite !Hdv by exact HKp. cbn [bind]. rewrite Hdv by exact HKp. cbn [bind].
    rewrite Hdv by exact HKp. cbn [bind].
    do 2 eexists. split; [reflexivity|]. split.
    - eapply lim_eq.
      + apply (quotient_s (fun s => jm_rho0 s t) (fun s => jm_K s t p)); try assumption.
        * apply poly_sqrt; exact Hs.
        * apply poly_sqrt; exact Hs.
      + do 2 f_equal; [f_equal|f_equal].
        * unfold jm_rho0_terms. revert Hq. destruct (sqrt_var s Hs') as (q & -> & -> & _). intro Hq.
          horner. field. lra.
        * unfold jm_K_terms. revert Hq. destruct (sqrt_var s Hs') as (q & -> & -> & _). intro Hq.
          horner. field. lra.
    - eapply lim_eq.
      + apply (quotient_s (fun t => jm_rho0 s t) (fun t => jm_K s t p)); try assumption.
        * apply poly_d2.
        * apply poly_d2.
      + do 2 f_equal; [f_equal|f_equal].
        * unfold jm_rho0_terms. destruct (sqrt_var s Hs') as (q & -> & -> & _). horner. ring.
        * unfold jm_K_terms. destruct (sqrt_var s Hs') as (q & -> & -> & _). horner. ring.
  Qed.

  Lemma jmd95_p : forall s t p, jm_dom s t p ->
    exists rp, jmd95_rho_p dv s t p = Ok rp /\ diff_p jm_rho s t p rp.
  Proof.
    intros s t p Hd. destruct Hd as (Hs' & H0 & Hp).
    assert (HKp : (jm_K s t p - p) * (jm_K s t p - p) <> 0) by (apply Rmult_integral_contrapositive; lra).
    unfold jmd95_rho_p, eosJMDCKFw0, eosJMDCKFw1, eosJMDCKFw2, eosJMDCKFw3, eosJMDCKFw4,
      eosJMDCKSw0, eosJMDCKSw1, eosJMDCKSw2, eosJMDCKSw3, eosJMDCKSw4, eosJMDCKSw5, eosJMDCKSw6,
      eosJMDCKP0, eosJMDCKP1, eosJMDCKP2, eosJMDCKP3, eosJMDCKP4, eosJMDCKP5, eosJMDCKP6,
      eosJMDCKP7, eosJMDCKP8, eosJMDCKP9, eosJMDCKP10, eosJMDCKP11, eosJMDCKP12, eosJMDCKP13,
      eosJMDCFw0, eosJMDCFw1, eosJMDCFw2, eosJMDCFw3, eosJMDCFw4, eosJMDCFw5,
      eosJMDCSw0, eosJMDCSw1, eosJMDCSw2, eosJMDCSw3, eosJMDCSw4, eosJMDCSw5, eosJMDCSw6,
      eosJMDCSw7, eosJMDCSw8. ru.
    match goal with |- context [dv (?a * (?b - _)) ((?K - p) * _)] =>
      assert (HR : a = jm_rho0 s t); [|rewrite !HR; clear HR];
      [|assert (HK : K = jm_K s t p); [|rewrite !HK; clear HK]] end.
    { unfold jm_rho0, jm_rho0_terms. destruct (sqrt_var s Hs') as (q & -> & -> & _). horner. ring. }
    { unfold jm_K, jm_K_terms. destruct (sqrt_var s Hs') as (q & -> & -> & _). horner. ring. }
    rewrite Hdv by exact HKp. cbn [bind].
    eexists. split; [reflexivity|].
    eapply lim_eq.
    - apply (quotient_p (fun p => jm_K s t p) (jm_rho0 s t)); try assumption. apply poly_d3.
    - do 4 f_equal.
      unfold jm_K_terms. destruct (sqrt_var s Hs') as (q & -> & -> & _). horner. ring.
  Qed.
End JM.
