(** * TEOS-10 specific volume: the public functions *)
From Coq Require Import ZArith Reals Lra Lia List.
From Verif Require Import Num Res M_eos_base M_gsw S_eos P_eos P_jmd95 P_gsw P_gsw2.
Import ListNotations.
Open Scope R_scope.

Section GSW.
  Variable dv : R -> R -> res R.
  Hypothesis Hdv : forall a b, b <> 0 -> dv a b = Ok (a / b).

  Lemma process_ok : forall s t p,
    gsw__process s t p =
    Ok (teos_x (Rmax s 0), t * tf, p * pf, teos_x (Rmax s 0) * teos_x (Rmax s 0)).
  Proof.
    intros s t p. unfold gsw__process, npmaximum. cbn [isnan ltb RNum]. ru.
    rewrite Rlit_n, sfac_sf, tfac_tf, pfac_pf.
    assert (Hm : (if Rltb s 0 then 0 else s) = Rmax s 0).
    { unfold Rltb, Rmax. destruct (Rlt_dec s 0), (Rle_dec s 0); lra. }
    rewrite Hm, teos_x_sq.
    change (@offset R _) with (Rlit 5971840214030754 (-16)). rewrite Rlit_dec.
    reflexivity.
  Qed.

  Lemma x_ne : forall s, teos_x (Rmax s 0) <> 0.
  Proof. intro s. pose proof (teos_x_pos s). lra. Qed.

  Ltac go := intros s t p;
    unfold gsw_specvol, gsw_specvol_first_derivs, gsw_specvol_second_derivs, gsw_specvol_third_derivs,
      gsw_specvol_s_t, gsw_specvol_p, gsw_specvol_s_t_ss_st_tt_sp_tp,
      gsw_specvol_s_t_ss_st_tt_sp_tp_sss_sst_stt_ttt_ssp_stp_ttp_spp_tpp;
    rewrite process_ok; cbn [bind];
    repeat first
      [ rewrite leaf_specvol by apply x_ne | rewrite (leaf_s dv Hdv) by apply x_ne
      | rewrite leaf_t by apply x_ne | rewrite leaf_p by apply x_ne
      | rewrite (leaf_ss dv Hdv) by apply x_ne | rewrite (leaf_st dv Hdv) by apply x_ne
      | rewrite leaf_tt by apply x_ne | rewrite (leaf_sp dv Hdv) by apply x_ne
      | rewrite leaf_tp by apply x_ne | rewrite leaf_pp by apply x_ne
      | rewrite (leaf_sss dv Hdv) by apply x_ne | rewrite (leaf_sst dv Hdv) by apply x_ne
      | rewrite (leaf_stt dv Hdv) by apply x_ne | rewrite leaf_ttt by apply x_ne
      | rewrite (leaf_ssp dv Hdv) by apply x_ne | rewrite (leaf_stp dv Hdv) by apply x_ne
      | rewrite leaf_ttp by apply x_ne | rewrite (leaf_spp dv Hdv) by apply x_ne
      | rewrite leaf_tpp by apply x_ne | rewrite leaf_ppp by apply x_ne ];
    cbn [bind]; reflexivity.

  Lemma specvol_d : forall s t p, gsw_specvol s t p = Ok (teos_d 0 0 0 s t p).
  Proof. go. Qed.
  Lemma first_d : forall s t p, gsw_specvol_first_derivs dv s t p =
    Ok (teos_d 1 0 0 s t p, teos_d 0 1 0 s t p, teos_d 0 0 1 s t p).
  Proof. go. Qed.
  Lemma second_d : forall s t p, gsw_specvol_second_derivs dv s t p =
    Ok (teos_d 2 0 0 s t p, teos_d 1 1 0 s t p, teos_d 0 2 0 s t p,
        teos_d 1 0 1 s t p, teos_d 0 1 1 s t p, teos_d 0 0 2 s t p).
  Proof. go. Qed.
  Lemma third_d : forall s t p, gsw_specvol_third_derivs dv s t p =
    Ok (teos_d 3 0 0 s t p, teos_d 2 1 0 s t p, teos_d 1 2 0 s t p, teos_d 0 3 0 s t p,
        teos_d 2 0 1 s t p, teos_d 1 1 1 s t p, teos_d 0 2 1 s t p,
        teos_d 1 0 2 s t p, teos_d 0 1 2 s t p, teos_d 0 0 3 s t p).
  Proof. go. Qed.
  Lemma s_t_d : forall s t p, gsw_specvol_s_t dv s t p =
    Ok (teos_d 1 0 0 s t p, teos_d 0 1 0 s t p).
  Proof. go. Qed.
  Lemma p_d : forall s t p, gsw_specvol_p s t p = Ok (teos_d 0 0 1 s t p).
  Proof. go. Qed.
  Lemma upto2_d : forall s t p, gsw_specvol_s_t_ss_st_tt_sp_tp dv s t p =
    Ok (teos_d 1 0 0 s t p, teos_d 0 1 0 s t p,
        teos_d 2 0 0 s t p, teos_d 1 1 0 s t p, teos_d 0 2 0 s t p,
        teos_d 1 0 1 s t p, teos_d 0 1 1 s t p).
  Proof. go. Qed.
  Lemma upto3_d : forall s t p,
    gsw_specvol_s_t_ss_st_tt_sp_tp_sss_sst_stt_ttt_ssp_stp_ttp_spp_tpp dv s t p =
    Ok (teos_d 1 0 0 s t p, teos_d 0 1 0 s t p,
        teos_d 2 0 0 s t p, teos_d 1 1 0 s t p, teos_d 0 2 0 s t p,
        teos_d 1 0 1 s t p, teos_d 0 1 1 s t p,
        teos_d 3 0 0 s t p, teos_d 2 1 0 s t p, teos_d 1 2 0 s t p, teos_d 0 3 0 s t p,
        teos_d 2 0 1 s t p, teos_d 1 1 1 s t p, teos_d 0 2 1 s t p,
        teos_d 1 0 2 s t p, teos_d 0 1 2 s t p).
  Proof. go. Qed.
End GSW.

Lemma teos_d_0 : forall s t p, teos_d 0 0 0 s t p = teos_v s t p.
Proof. intros s t p. unfold teos_d, teos_v. cbn [D Nat.iter nat_rect pow]. fold tf pf. ring. Qed.

(** below zero salinity the function is constant but its SA derivative is not zero *)
Lemma clamped : forall s t p, s < 0 -> diff_s teos_v s t p 0.
Proof.
  intros s t p Hs. unfold diff_s.
  apply (lim_local (fun _ => teos_v 0 t p) _ s _ (- s)); [lra| |apply lim_const].
  intros y Hy. apply Rabs_def2 in Hy. unfold teos_v. rewrite !Rmax_right by lra. reflexivity.
Qed.
