(** * Mixed layer: the named equations of state *)
From Coq Require Import String ZArith Reals Lra Lia List.
From Verif Require Import Num XR Res M_eos_base M_jmd95 M_jmdfwg06 M_gsw M_eostools S_eos S_interp S_traj S_mixed_layer P_eos P_jmd95 P_jmdfwg06
  P_gsw P_gsw2 P_gsw3 P_eosx P_eosbound P_eosocean XRlemmas.
Import ListNotations.
Local Open Scope R_scope.

Definition gt1 (l : coeffs) (I J K : itv) : bool := (snd (idec 1 0) <? fst (ihorner l I J K))%Z.
Definition lt1 (l : coeffs) (I J K : itv) : bool := (snd (ihorner l I J K) <? fst (idec 1 0))%Z.

Lemma ck_rho0_1 : on_boxes (gt1 jm_rho0_h) bx bt bp = true.
Proof. vm_compute. reflexivity. Qed.
Lemma ck_jf_1 : on_boxes (fun I J K => snd (jfd I J K) <? fst (ihorner jf_num_h I J K))%Z bx bt bp = true.
Proof. vm_compute. reflexivity. Qed.
Lemma ck_v_1 : on_boxes (lt1 teos_h) vx1 vt vp = true.
Proof. vm_compute. reflexivity. Qed.

Lemma dec_1 : dec 1 0 = 1.
Proof. unfold dec. cbn. ring. Qed.

Lemma jm_gt_1 s t p : ocean s t p -> 1 < jm_rho s t p.
Proof.
  intros H. pose proof (jm_signs _ _ _ H) as (Hk & Hr & _). 
  assert (H1 : 1 < jm_rho0 s t).
  { destruct (ocean_box _ _ _ H) as (I & J & K & HI & HJ & HK & HI' & HJ' & HK').
    unfold jm_rho0. rewrite <- (jm_rho0_horner _ _ p), <- dec_1. eapply in_lt; [apply idec_ok|apply (ihorner_ok _ _ _ _ _ _ _ HI' HJ' HK')|].
    boxed ck_rho0_1. }
  destruct H as (_ & _ & Hp). unfold jm_rho.
  assert (Hq : 0 <= p / jm_K s t p < 1).
  { split; [apply Rmult_le_pos; [lra|left; apply Rinv_0_lt_compat; lra]|]. apply (Rmult_lt_reg_r (jm_K s t p)); [lra|].
    unfold Rdiv. rewrite Rmult_assoc, Rinv_l, Rmult_1_r by lra. lra. }
  apply (Rmult_lt_reg_r (1 - p / jm_K s t p)); [lra|]. unfold Rdiv at 2. rewrite Rmult_assoc, Rinv_l by lra. lra.
Qed.

Lemma jf_gt_1 s t p : ocean s t p -> 1 < jf_rho s t p.
Proof.
  intros H. pose proof (jf_signs _ _ _ H) as (Hn & Hd & _).
  assert (H1 : jf_den s t p < jf_num s t p).
  { destruct (ocean_box _ _ _ H) as (I & J & K & HI & HJ & HK & HI' & HJ' & HK').
    unfold jf_num, jf_den. rewrite <- jf_num_horner, <- jf_den_horner.
    pose proof (fun l => ihorner_ok l _ _ _ _ _ _ HI' HJ' HK') as Hh.
    eapply in_lt; [apply iadd_ok; [apply Hh|apply idec_ok]|apply Hh|]. boxed ck_jf_1. }
  unfold jf_rho. apply (Rmult_lt_reg_r (jf_den s t p)); [lra|]. unfold Rdiv. rewrite Rmult_assoc, Rinv_l by lra. lra.
Qed.

Lemma teos_range s t p : ocean s t p -> 0 < teos_v s t p < 1.
Proof.
  intros (Hs & Hd). rewrite <- teos_d_0. split; [apply teos_signs; [lra|exact Hd]|].
  pose proof (x_range s ltac:(lra)) as Hx. destruct (deep_box _ _ Hd) as (J & K & HJ & HK & HJ' & HK').
  unfold teos_d. cbn [D Nat.iter nat_rect pow]. rewrite <- teos_horner. set (x := teos_x (Rmax s 0)) in *.
  destruct (pieces_mi 1 770 540 x) as (I1 & HI1 & HI1'); [lia|cbn; lra|].
  assert (A : rhorner teos_h x (t * tf) (p * pf) < dec 1 0).
  { eapply in_lt; [apply (ihorner_ok _ _ _ _ _ _ _ HI1' HJ' HK')|apply idec_ok|]. apply (on_boxes_ok _ _ _ _ ck_v_1); assumption. }
  rewrite dec_1 in A. lra.
Qed.

(** NaN salinity *)
Lemma gsw_nan t p : not_inf t -> gsw_specvol NaN t (Fin p) = Ok NaN.
Proof. intros [->|[r ->]]; reflexivity. Qed.
Lemma jm_nan t p : not_inf t -> jmd95_rho sdiv NaN t (Fin p) = Ok NaN.
Proof. intros [->|[r ->]]; reflexivity. Qed.
Lemma jf_nan t p : not_inf t -> jmdfwg06_rho sdiv NaN t (Fin p) = Ok NaN.
Proof. intros [->|[r ->]]; reflexivity. Qed.

Lemma make_named name grav rho_c zp rho : density name rho -> pressure_factor grav rho_c zp ->
  exists f, make_eos sdiv (AStr name) grav rho_c = Ok (F1 f)
    /\ (forall t p, not_inf t -> f NaN t (Fin p) = Ok NaN)
    /\ exists v, (forall s t p, ocean s t (p * zp) -> f (Fin s) (Fin t) (Fin p) = Ok (Fin (v s t (p * zp))))
       /\ ((forall s t p, ocean s t p -> 1 < v s t p /\ rho s t p = v s t p)
           \/ forall s t p, ocean s t p -> v s t p <= 1 /\ v s t p <> 0 /\ rho s t p = 1 / v s t p).
Proof.
  intros Hd Hz.
  assert (A : exists f0, attribute sdiv name (match lookup name modules with Some b => b ++ "" | None => "" end)%string = Ok (F1 f0)
     /\ lookup name modules <> None
     /\ (forall t p, not_inf t -> f0 NaN t (Fin p) = Ok NaN)
     /\ exists v, (forall s t p, ocean s t p -> f0 (Fin s) (Fin t) (Fin p) = Ok (Fin (v s t p)))
       /\ ((forall s t p, ocean s t p -> 1 < v s t p /\ rho s t p = v s t p)
           \/ forall s t p, ocean s t p -> v s t p <= 1 /\ v s t p <> 0 /\ rho s t p = 1 / v s t p)).
  { destruct Hd.
    - exists gsw_specvol. split; [reflexivity|]. split; [discriminate|]. split; [exact gsw_nan|]. exists teos_v. split.
      + intros s t p _. apply specvol_x.
      + right. intros s t p H. pose proof (teos_range _ _ _ H). split; [lra|]. split; [lra|reflexivity].
    - exists (jmd95_rho sdiv). split; [reflexivity|]. split; [discriminate|]. split; [exact jm_nan|]. exists jm_rho. split.
      + intros s t p H. apply jmd95_x. apply jm_ocean_dom. exact H.
      + left. intros s t p H. split; [apply jm_gt_1; exact H|reflexivity].
    - exists (jmdfwg06_rho sdiv). split; [reflexivity|]. split; [discriminate|]. split; [exact jf_nan|]. exists jf_rho. split.
      + intros s t p H. apply jmdfwg06_x. apply jf_ocean_dom. exact H.
      + left. intros s t p H. split; [apply jf_gt_1; exact H|reflexivity]. }
  destruct A as (f0 & Ef & Hl & Hn & v & Hv & Hr).
  unfold make_eos, _make_eos. destruct (lookup name modules) as [base|] eqn:El; [|congruence]. rewrite Ef. cbn [bind].
  destruct Hz as [[Hz ->]|(g & r & -> & -> & ->)].
  - exists f0. split; [destruct Hz as [-> | ->]; [reflexivity|destruct grav; reflexivity]|]. split; [exact Hn|]. exists v. split; [|exact Hr].
    intros s t p. rewrite Rmult_1_r. apply Hv.
  - eexists. split; [reflexivity|].
    assert (E : forall p, mul (Fin p) (mul (mul (lit 1 (-4)) (Fin g)) (Fin r)) = Fin (p * (g * r / 10000))).
    { intros p. cbn [mul lit xrNum xr_mul]. f_equal. unfold Rlit. simpl. field. }
    split; [|exists v; split; [|exact Hr]].
    + intros t p Ht. rewrite E. apply Hn. exact Ht.
    + intros s t p H. rewrite E. apply Hv. exact H.
Qed.

Lemma named_density name rho grav rho_c zp ref S T P k K ss ts ps : density name rho -> pressure_factor grav rho_c zp ->
  ocean (69 / 2) 3 (1000 * zp) -> sea_water S T (ref * zp) -> cast S T P k K ss ts ps ->
  exists f, make_eos sdiv (AStr name) grav rho_c = Ok (F1 f)
    /\ pot_density f (Fin ref) S T k K (fun i => rho (ss i) (ts i) (ref * zp)).
Proof.
  intros Hd Hz Ho Hw HC. destruct (make_named _ _ _ _ _ Hd Hz) as (f & Ef & Hn & v & Hv & Hr). exists f. split; [exact Ef|].
  assert (Hb : forall i s t, (k <= i < K)%nat -> nth_error S i = Some s -> nth_error T i = Some t ->
     s = Fin (ss i) /\ t = Fin (ts i) /\ ocean (ss i) (ts i) (ref * zp)).
  { intros i s t Hi Es Et. pose proof (blk_Y _ _ _ _ _ _ (cast_blk _ _ _ _ _ _ _ _ HC) i Hi) as E1. pose proof (cast_T _ _ _ _ _ _ _ _ HC i Hi) as E2.
    destruct (Hw i s t Es Et) as [[-> _]|(a & b & -> & -> & Hab)]; [congruence|].
    rewrite Es in E1. rewrite Et in E2. injection E1 as ->. injection E2 as ->. auto. }
  constructor.
  - exists (v (69 / 2) 3 (1000 * zp)). split; [apply Hv; exact Ho|]. intros i s t Hi Es Et.
    destruct (Hb i s t Hi Es Et) as (-> & -> & Hab). exists (v (ss i) (ts i) (ref * zp)). split; [apply Hv; exact Hab|].
    destruct Hr as [Hr|Hr].
    + left. split; apply Hr; assumption.
    + right. split; [apply Hr; exact Ho|]. apply (Hr _ _ _ Hab).
  - intros i s t Es Et. destruct (Hw i s t Es Et) as [[-> Ht]|(a & b & -> & -> & Hab)].
    + exists NaN. split; [apply Hn; exact Ht|reflexivity].
    + exists (Fin (v a b (ref * zp))). split; [apply Hv; exact Hab|discriminate].
Qed.
