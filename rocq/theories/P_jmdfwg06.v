(** * Jackett et al. (2006): values and derivatives *)
From Coq Require Import ZArith Reals Lra Lia List.
From Verif Require Import Num Res M_eos_base M_jmdfwg06 S_eos P_eos P_jmd95.
Import ListNotations.
Open Scope R_scope.

Section JF.
  Variable dv : R -> R -> res R.
  Hypothesis Hdv : forall a b, b <> 0 -> dv a b = Ok (a / b).

  Ltac unf :=
    unfold jf_a0, jf_a1, jf_a2, jf_a3, jf_a4, jf_a5, jf_a6, jf_a7, jf_a8, jf_a9, jf_a10, jf_a11,
      jf_b0, jf_b1, jf_b2, jf_b3, jf_b4, jf_b5, jf_b6, jf_b7, jf_b8, jf_b9, jf_b10, jf_b11,
      jf_b12, jf_epsln; ru.

  Lemma dec_1 : dec 1 0 = 1.
  Proof. unfold dec. cbn. ring. Qed.

  Ltac idn Hs := destruct (sqrt_var _ Hs) as (q & -> & -> & _); horner; rewrite ?dec_1; ring.

  Lemma jmdfwg06_value : forall s t p, jf_dom s t p -> jmdfwg06_rho dv s t p = Ok (jf_rho s t p).
  Proof.
    intros s t p (Hs & Hd). unfold jmdfwg06_rho. unf.
    match goal with |- context [dv ?a ?b] => assert (Hb : b = jf_den s t p) end.
    { unfold jf_den, jf_den_terms. idn Hs. }
    rewrite Hb, Hdv by exact Hd. cbn [bind]. f_equal.
    match goal with |- ?a * _ = _ => assert (Ha : a = jf_num s t p) end.
    { unfold jf_num, jf_num_terms. idn Hs. }
    rewrite Ha, Rlit_n. unfold jf_rho, Rdiv. ring.
  Qed.

  Lemma ratio : forall (A B : R -> R) x a b, derivable_pt_lim A x a -> derivable_pt_lim B x b ->
    B x <> 0 ->
    derivable_pt_lim (fun x => A x / B x) x ((a - A x * b * (1 / B x)) * (1 / B x)).
  Proof.
    intros A B x a b HA HB H0. eapply lim_eq; [apply lim_div; eassumption|].
    unfold Rsqr. field. exact H0.
  Qed.

  Lemma jmdfwg06_s_t : forall s t p, 0 < s -> jf_dom s t p ->
    exists rs rt, jmdfwg06_rho_s_t dv s t p = Ok (rs, rt) /\
      diff_s jf_rho s t p rs /\ diff_t jf_rho s t p rt.
  Proof.
    intros s t p Hs (Hs' & Hd).
    assert (Hq : 0 < sqrt s) by (apply sqrt_lt_R0; exact Hs).
    unfold jmdfwg06_rho_s_t. unf.
    match goal with |- context [dv ?a ?b] => assert (Hb : b = jf_den s t p) end.
    { unfold jf_den, jf_den_terms. idn Hs'. }
    rewrite Hb, Hdv by exact Hd. cbn [bind]. clear Hb.
    match goal with |- context [?n * _ * (Rlit 1 0 / jf_den s t p)] => assert (Ha : n = jf_num s t p) end.
    { unfold jf_num, jf_num_terms. idn Hs'. }
    rewrite !Ha. clear Ha.
    do 2 eexists. split; [reflexivity|]. split.
    - eapply lim_eq.
      + apply (ratio (fun s => jf_num s t p) (fun s => jf_den s t p)); try assumption;
          apply poly_sqrt; exact Hs.
      + rewrite (Rlit_n 1). f_equal. f_equal; [|f_equal; f_equal].
        * unfold jf_num_terms. revert Hq. destruct (sqrt_var s Hs') as (q & -> & -> & _). intro Hq.
          horner. field. lra.
        * unfold jf_den_terms. revert Hq. destruct (sqrt_var s Hs') as (q & -> & -> & _). intro Hq.
          horner. field. lra.
    - eapply lim_eq.
      + apply (ratio (fun t => jf_num s t p) (fun t => jf_den s t p)); try assumption; apply poly_d2.
      + rewrite (Rlit_n 1). f_equal. f_equal; [|f_equal; f_equal].
        * unfold jf_num_terms. idn Hs'.
        * unfold jf_den_terms. idn Hs'.
  Qed.

  Lemma jmdfwg06_p : forall s t p, jf_dom s t p ->
    exists rp, jmdfwg06_rho_p dv s t p = Ok rp /\ diff_p jf_rho s t p rp.
  Proof.
    intros s t p (Hs' & Hd).
    unfold jmdfwg06_rho_p. unf.
    match goal with |- context [dv ?a ?b] => assert (Hb : b = jf_den s t p) end.
    { unfold jf_den, jf_den_terms. idn Hs'. }
    rewrite Hb, Hdv by exact Hd. cbn [bind]. clear Hb.
    match goal with |- context [?n * _ * (Rlit 1 0 / jf_den s t p)] => assert (Ha : n = jf_num s t p) end.
    { unfold jf_num, jf_num_terms. idn Hs'. }
    rewrite !Ha. clear Ha.
    eexists. split; [reflexivity|].
    eapply lim_eq.
    - apply (ratio (fun p => jf_num s t p) (fun p => jf_den s t p)); try assumption; apply poly_d3.
    - rewrite (Rlit_n 1). f_equal. f_equal; [|f_equal; f_equal].
      + unfold jf_num_terms. idn Hs'.
      + unfold jf_den_terms. idn Hs'.
  Qed.
End JF.
