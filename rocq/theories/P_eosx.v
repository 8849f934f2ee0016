(** * The equations of state on NaN-extended reals *)
From Coq Require Import ZArith Reals Lra Lia List.
From Verif Require Import Num XR Res M_eos_base M_jmd95 M_jmdfwg06 M_gsw S_eos S_traj S_ntp P_eos P_jmd95 P_jmdfwg06 P_gsw P_gsw2 P_gsw3.
Import ListNotations.
Open Scope R_scope.

(** apply f to the value of a computation *)
Definition rmap {A B} (f : A -> B) (r : res A) : res B :=
  match r with Ok a => Ok (f a) | Err e => Err e end.
Definition f2 (w : R * R) : xr * xr := (Fin (fst w), Fin (snd w)).

Lemma lit_0 : Rlit 0 0 = 0.
Proof. rewrite Rlit_n. reflexivity. Qed.

Lemma sdiv_fin : forall a b, sdiv (Fin a) (Fin b) = rmap Fin (sdiv a b).
Proof.
  intros a b. unfold sdiv. cbn [eqb lit xrNum RNum xr_eqb div xr_div]. unfold zero.
  cbn [lit xrNum RNum]. unfold xr_eqb, Reqb. rewrite lit_0.
  destruct (Req_EM_T b 0) as [E|E]; [reflexivity|]. unfold rmap, xr_div.
  destruct (Req_EM_T b 0); [contradiction|reflexivity].
Qed.

Lemma sdiv_ok : forall a b : R, b <> 0 -> sdiv a b = Ok (a / b).
Proof.
  intros a b H. unfold sdiv, zero. cbn [eqb lit RNum div]. unfold Reqb. rewrite lit_0.
  destruct (Req_EM_T b 0); [contradiction|reflexivity].
Qed.
Lemma adiv_ok : forall a b : R, b <> 0 -> adiv a b = Ok (a / b).
Proof. reflexivity. Qed.

Lemma sdiv_okx : forall a b : R, b <> 0 -> sdiv (Fin a) (Fin b) = Ok (Fin (a / b)).
Proof. intros a b H. rewrite sdiv_fin, sdiv_ok by exact H. reflexivity. Qed.
Lemma adiv_okx : forall a b : R, b <> 0 -> adiv (Fin a) (Fin b) = Ok (Fin (a / b)).
Proof.
  intros a b H. unfold adiv. cbn [div xrNum]. unfold xr_div.
  destruct (Req_EM_T b 0); [contradiction|reflexivity].
Qed.

Lemma sqrt_fin : forall s, 0 <= s -> fsqrt (Fin s) = Fin (sqrt s).
Proof. intros s H. cbn [fsqrt xrNum]. unfold xr_sqrt. destruct (Rlt_dec s 0); [lra|reflexivity]. Qed.

(** ** GSW *)
Lemma process_x : forall s t p, gsw__process (Fin s) (Fin t) (Fin p) =
  Ok (Fin (teos_x (Rmax s 0)), Fin (t * tf), Fin (p * pf),
      Fin (teos_x (Rmax s 0) * teos_x (Rmax s 0))).
Proof.
  intros s t p. pose proof (process_ok s t p) as H. unfold gsw__process in *.
  assert (Hm : npmaximum (Fin s) (lit 0 0) = Fin (npmaximum s (lit 0 0))).
  { unfold npmaximum. cbn [isnan ltb lit xrNum RNum xr_isnan xr_ltb].
    destruct (Rltb s (Rlit 0 0)); reflexivity. }
  rewrite Hm. injection H as H1 H2 H3 H4.
  cbn [add mul xrNum lit sfac offset tfac pfac]. unfold xr_add, xr_mul.
  replace (Rlit 248826675584615 (-16) * npmaximum s (lit 0 0) + Rlit 5971840214030754 (-16))
    with (teos_x (Rmax s 0) * teos_x (Rmax s 0)).
  rewrite sqrt_fin by nra. rewrite sqrt_square by (left; apply teos_x_pos).
  replace (t * Rlit 25 (-3)) with (t * tf). replace (p * Rlit 1 (-4)) with (p * pf). reflexivity.
Qed.

Lemma specvol_x : eos_real gsw_specvol teos_v.
Proof.
  intros s t p. unfold gsw_specvol. rewrite process_x. cbn [bind].
  pose proof (leaf_specvol (teos_x (Rmax s 0)) (t * tf) (p * pf)) as H.
  rewrite <- teos_d_0. unfold teos_d.
  change (gsw__specvol (Fin (teos_x (Rmax s 0))) (Fin (t * tf)) (Fin (p * pf)))
    with (rmap Fin (gsw__specvol (teos_x (Rmax s 0)) (t * tf) (p * pf))).
  rewrite H; [reflexivity|apply x_ne].
Qed.

Lemma s_t_x : forall dv : xr -> xr -> res xr,
  (forall a b, b <> 0 -> dv (Fin a) (Fin b) = Ok (Fin (a / b))) ->
  eos_s_t_real (gsw_specvol_s_t dv) (teos_d 1 0 0) (teos_d 0 1 0).
Proof.
  intros dv Hdv s t p. unfold gsw_specvol_s_t. rewrite process_x. cbn [bind].
  set (x := teos_x (Rmax s 0)). set (y := t * tf). set (z := p * pf).
  pose proof (x_ne s) as Hx. fold x in Hx.
  pose proof (leaf_s (fun a b : R => Ok (a / b)) (fun a b _ => eq_refl) x y z Hx) as H1.
  pose proof (leaf_t x y z Hx) as H2.
  assert (E : gsw__s dv (Fin x) (Fin y) (Fin z) = rmap Fin (gsw__s (fun a b : R => Ok (a / b)) x y z)).
  { unfold gsw__s at 1.
    match goal with |- context [dv ?a (Fin x)] =>
      change (dv a (Fin x)) with (dv (Fin (match a with Fin r => r | _ => 0 end)) (Fin x)) end.
    rewrite Hdv by exact Hx. reflexivity. }
  rewrite E, H1. cbn [bind rmap].
  change (gsw__t (Fin x) (Fin y) (Fin z)) with (rmap Fin (gsw__t x y z)).
  rewrite H2. cbn [bind rmap]. unfold teos_d. reflexivity.
Qed.

Lemma p_x : forall s t p, gsw_specvol_p (Fin s) (Fin t) (Fin p) = Ok (Fin (teos_d 0 0 1 s t p)).
Proof.
  intros s t p. unfold gsw_specvol_p. rewrite process_x. cbn [bind].
  set (x := teos_x (Rmax s 0)). set (y := t * tf). set (z := p * pf).
  change (gsw__p (Fin x) (Fin y) (Fin z)) with (rmap Fin (gsw__p x y z)).
  rewrite leaf_p by apply x_ne. reflexivity.
Qed.

(** ** Densities, scalar calls *)
Lemma jmd95_x : forall s t p, jm_dom s t p ->
  jmd95_rho sdiv (Fin s) (Fin t) (Fin p) = Ok (Fin (jm_rho s t p)).
Proof.
  intros s t p H. pose proof (jmd95_value sdiv sdiv_ok s t p H) as HV. destruct H as (Hs & _).
  enough (E : jmd95_rho sdiv (Fin s) (Fin t) (Fin p) = rmap Fin (jmd95_rho sdiv s t p)).
  { rewrite E, HV. reflexivity. }
  unfold jmd95_rho. rewrite sqrt_fin by exact Hs. cbn [fsqrt RNum].
  set (q := sqrt s).
  match goal with |- bind (sdiv ?a ?b) _ = rmap Fin (bind (sdiv ?c ?d) _) =>
    change b with (Fin d) end.
  rewrite sdiv_fin. destruct (sdiv p _) as [v|e]; [|reflexivity]. cbn [rmap bind].
  match goal with |- bind (sdiv ?a ?b) _ = rmap Fin (bind (sdiv ?c ?d) _) =>
    change b with (Fin d); change a with (Fin c) end.
  rewrite sdiv_fin. destruct (sdiv _ _); reflexivity.
Qed.

Lemma jmdfwg06_x : forall s t p, jf_dom s t p ->
  jmdfwg06_rho sdiv (Fin s) (Fin t) (Fin p) = Ok (Fin (jf_rho s t p)).
Proof.
  intros s t p H. pose proof (jmdfwg06_value sdiv sdiv_ok s t p H) as HV. destruct H as (Hs & _).
  enough (E : jmdfwg06_rho sdiv (Fin s) (Fin t) (Fin p) = rmap Fin (jmdfwg06_rho sdiv s t p)).
  { rewrite E, HV. reflexivity. }
  unfold jmdfwg06_rho. rewrite sqrt_fin by exact Hs. cbn [fsqrt RNum].
  set (q := sqrt s).
  match goal with |- bind (sdiv ?a ?b) _ = rmap Fin (bind (sdiv ?c ?d) _) =>
    change b with (Fin d); change a with (Fin c) end.
  rewrite sdiv_fin. destruct (sdiv _ _) as [v|e]; reflexivity.
Qed.

(** ** Collected statements *)
Lemma division_ok : forall dv : R -> R -> res R, dv = sdiv \/ dv = adiv ->
  forall a b, b <> 0 -> dv a b = Ok (a / b).
Proof. intros dv [-> | ->]; [exact sdiv_ok|exact adiv_ok]. Qed.
Lemma division_okx : forall dv : xr -> xr -> res xr, dv = sdiv \/ dv = adiv ->
  forall a b, b <> 0 -> dv (Fin a) (Fin b) = Ok (Fin (a / b)).
Proof. intros dv [-> | ->]; [exact sdiv_okx|exact adiv_okx]. Qed.

Lemma jm_all : forall dv : R -> R -> res R, dv = sdiv \/ dv = adiv -> forall s t p, jm_dom s t p ->
  jmd95_rho dv s t p = Ok (jm_rho s t p) /\
  (exists rp, jmd95_rho_p dv s t p = Ok rp /\ diff_p jm_rho s t p rp) /\
  (0 < s -> exists rs rt, jmd95_rho_s_t dv s t p = Ok (rs, rt) /\
              diff_s jm_rho s t p rs /\ diff_t jm_rho s t p rt).
Proof.
  intros dv Hdv s t p H. pose proof (division_ok dv Hdv) as Hd. split; [|split].
  - apply jmd95_value; assumption.
  - apply jmd95_p; assumption.
  - intro Hs. apply jmd95_s_t; assumption.
Qed.

Lemma jf_all : forall dv : R -> R -> res R, dv = sdiv \/ dv = adiv -> forall s t p, jf_dom s t p ->
  jmdfwg06_rho dv s t p = Ok (jf_rho s t p) /\
  (exists rp, jmdfwg06_rho_p dv s t p = Ok rp /\ diff_p jf_rho s t p rp) /\
  (0 < s -> exists rs rt, jmdfwg06_rho_s_t dv s t p = Ok (rs, rt) /\
              diff_s jf_rho s t p rs /\ diff_t jf_rho s t p rt).
Proof.
  intros dv Hdv s t p H. pose proof (division_ok dv Hdv) as Hd. split; [|split].
  - apply jmdfwg06_value; assumption.
  - apply jmdfwg06_p; assumption.
  - intro Hs. apply jmdfwg06_s_t; assumption.
Qed.

Lemma teos_all : exists H : nat -> nat -> nat -> R -> R -> R -> R,
  (forall s t p, H 0%nat 0%nat 0%nat s t p = teos_v s t p) /\
  (forall a b c s t p, (a < 3)%nat -> 0 < s -> diff_s (H a b c) s t p (H (S a) b c s t p)) /\
  (forall a b c s t p, diff_t (H a b c) s t p (H a (S b) c s t p)) /\
  (forall a b c s t p, diff_p (H a b c) s t p (H a b (S c) s t p)) /\
  forall dv : R -> R -> res R, dv = sdiv \/ dv = adiv -> forall s t p,
  let h a b c := H a b c s t p in
    gsw_specvol s t p = Ok (h 0 0 0)%nat /\
    gsw_specvol_s_t dv s t p = Ok (h 1 0 0, h 0 1 0)%nat /\
    gsw_specvol_p s t p = Ok (h 0 0 1)%nat /\
    gsw_specvol_first_derivs dv s t p = Ok (h 1 0 0, h 0 1 0, h 0 0 1)%nat /\
    gsw_specvol_second_derivs dv s t p = Ok (h 2 0 0, h 1 1 0, h 0 2 0, h 1 0 1, h 0 1 1, h 0 0 2)%nat /\
    gsw_specvol_third_derivs dv s t p =
      Ok (h 3 0 0, h 2 1 0, h 1 2 0, h 0 3 0, h 2 0 1, h 1 1 1, h 0 2 1, h 1 0 2, h 0 1 2, h 0 0 3)%nat /\
    gsw_specvol_s_t_ss_st_tt_sp_tp dv s t p =
      Ok (h 1 0 0, h 0 1 0, h 2 0 0, h 1 1 0, h 0 2 0, h 1 0 1, h 0 1 1)%nat /\
    gsw_specvol_s_t_ss_st_tt_sp_tp_sss_sst_stt_ttt_ssp_stp_ttp_spp_tpp dv s t p =
      Ok (h 1 0 0, h 0 1 0, h 2 0 0, h 1 1 0, h 0 2 0, h 1 0 1, h 0 1 1,
          h 3 0 0, h 2 1 0, h 1 2 0, h 0 3 0, h 2 0 1, h 1 1 1, h 0 2 1, h 1 0 2, h 0 1 2)%nat.
Proof.
  exists teos_d. split; [exact teos_d_0|]. split; [exact teos_diff_s|]. split; [exact teos_diff_t|].
  split; [exact teos_diff_p|]. intros dv Hdv s t p h. pose proof (division_ok dv Hdv) as Hd.
  repeat split.
  - apply specvol_d.
  - apply s_t_d; exact Hd.
  - apply p_d.
  - apply first_d; exact Hd.
  - apply second_d; exact Hd.
  - apply third_d; exact Hd.
  - apply upto2_d; exact Hd.
  - apply upto3_d; exact Hd.
Qed.

Lemma teos_x_all : eos_real gsw_specvol teos_v /\
  exists vs vt, (forall s t p, 0 < s -> diff_s teos_v s t p (vs s t p)) /\
    (forall s t p, diff_t teos_v s t p (vt s t p)) /\
    forall dv : xr -> xr -> res xr, dv = sdiv \/ dv = adiv -> eos_s_t_real (gsw_specvol_s_t dv) vs vt.
Proof.
  split; [exact specvol_x|]. exists (teos_d 1 0 0), (teos_d 0 1 0).
  split; [|split].
  - intros s t p Hs. unfold diff_s.
    apply (lim_ext (fun s' => teos_d 0 0 0 s' t p)); [intro; apply teos_d_0|].
    apply teos_diff_s; [lia|exact Hs].
  - intros s t p. unfold diff_t.
    apply (lim_ext (fun t' => teos_d 0 0 0 s t' p)); [intro; apply teos_d_0|].
    apply teos_diff_t.
  - intros dv Hdv. apply s_t_x. exact (division_okx dv Hdv).
Qed.
