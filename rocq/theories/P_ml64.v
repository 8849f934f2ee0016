(** * The mixed layer in binary64: proofs *)
From Coq Require Import String ZArith Bool Reals Lra Lia List SpecFloat.
From Flocq Require Import Core IEEE754.BinarySingleNaN.
From Verif Require Import Num XR SF Res Arr ArrLemmas Nd NdLemmas XRlemmas M_numpy M_lib M_ppinterp M_make_pp M_eos_base M_jmd95 M_jmdfwg06 M_gsw M_eostools M_mixed_layer
  S_eos S_float S_interp S_domain S_named S_traj S_vertsolve S_vert64 S_entry64 S_omega64 S_mixed_layer S_ml64
  P_eos P_gsw P_gsw2 P_gsw3 P_eosbound P_eosocean P_float P_fl P_holds P_linear64 P_ppinterp P_pval P_interp P_interp2 P_coeffs P_vert64 P_surf64 P_ntpnan64 P_lost64 P_entry64 P_fly64 P_omega64b
  P_trajentry64 P_mixed_layer P_traj64.
Import ListNotations.
Local Open Scope R_scope.
#[local] Existing Instance P_float.prec_pos.
#[local] Existing Instance P_float.prec_max.

(** ** differences of densities are multiples of 2^-52 *)
Definition grid (r : R) : Prop := exists m : Z, r = IZR m * powerRZ 2 (-52).

Lemma pow2_int a b : (b <= a)%Z -> exists z, powerRZ 2 a = IZR z * powerRZ 2 b.
Proof.
  intros H. exists (2 ^ (a - b))%Z. replace a with ((a - b) + b)%Z at 1 by lia. rewrite <- pow2_mul. f_equal.
  rewrite (IZR_Zpower radix2) by lia. symmetry. apply bpow_powerRZ.
Qed.
Lemma float_grid (x : f64) : finite64 x -> 1 <= fval x -> grid (fval x).
Proof.
  intros F H. destruct x as [s|s| |s m e]; try (cbn [fval] in H; lra). destruct s.
  { cbn [fval] in H. exfalso. pose proof (pow2_pos e). assert (0 < IZR (Z.pos m)) by (apply IZR_lt; lia). nra. }
  cbn [fval] in *. destruct F as (Hm & He & _).
  assert (E : (-52 <= e)%Z).
  { destruct (Z.le_gt_cases (-52) e) as [|He']; [assumption|exfalso].
    assert (H1 : powerRZ 2 e <= powerRZ 2 (-53)) by (apply pow2_le; lia).
    assert (H2 : IZR (Z.pos m) < 9007199254740992) by (apply (IZR_lt _ (2 ^ 53)); exact Hm).
    assert (H3 : powerRZ 2 (-53) = / 9007199254740992) by (simpl; lra).
    pose proof (pow2_pos e). assert (0 < IZR (Z.pos m)) by (apply IZR_lt; lia). rewrite H3 in H1.
    assert (IZR (Z.pos m) * powerRZ 2 e < 9007199254740992 * / 9007199254740992); [|lra].
    apply Rlt_le_trans with (9007199254740992 * powerRZ 2 e); [apply Rmult_lt_compat_r; lra|apply Rmult_le_compat_l; lra]. }
  destruct (pow2_int e (-52) E) as (z & ->). exists (Z.pos m * z)%Z. rewrite mult_IZR. ring.
Qed.
Lemma round_grid r : grid r -> grid (rnd r).
Proof.
  intros (m & ->). assert (EF : IZR m * powerRZ 2 (-52) = F2R (Float radix2 m (-52))).
  { unfold F2R. cbn [Fnum Fexp]. rewrite <- bpow_powerRZ. reflexivity. }
  destruct (Z.le_gt_cases (cexp radix2 (SpecFloat.fexp 53 1024) (IZR m * powerRZ 2 (-52))) (-52)) as [H|H].
  - rewrite round_generic; [exists m; reflexivity| |].
    + apply valid_rnd_round_mode.
    + rewrite EF in H |- *. apply generic_format_F2R. intros _. exact H.
  - unfold round, F2R. cbn [Fnum Fexp]. set (z := round_mode mode_NE _). rewrite bpow_powerRZ.
    destruct (pow2_int _ (-52) (Z.lt_le_incl _ _ H)) as (w & ->). exists (z * w)%Z. rewrite mult_IZR. ring.
Qed.
Lemma sub_grid (x y : f64) : finite64 x -> finite64 y -> 1 <= fval x <= 4000 -> 1 <= fval y <= 4000 ->
  finite64 (sub x y : f64) /\ fval (sub x y : f64) = rnd (fval x - fval y) /\ grid (fval (sub x y : f64)).
Proof.
  intros Fx Fy Hx Hy. destruct (sub_val x y Fx Fy) as [F E].
  { apply rnd_small. apply small_big. apply Rabs_le. lra. }
  change (sf_sub x y) with (sub x y : f64) in *. split; [exact F|]. split; [exact E|]. rewrite E. apply round_grid.
  destruct (float_grid x Fx (proj1 Hx)) as (m & ->), (float_grid y Fy (proj1 Hy)) as (n & ->). exists (m - n)%Z. rewrite minus_IZR. ring.
Qed.
Lemma grid_apart a b : grid a -> grid b -> a < b -> powerRZ 2 (-52) <= b - a.
Proof.
  intros (m & ->) (n & ->) H. pose proof (pow2_pos (-52)).
  assert (m < n)%Z. { apply lt_IZR. apply (Rmult_lt_reg_r (powerRZ 2 (-52))); assumption. }
  assert (IZR m + 1 <= IZR n) by (rewrite <- plus_IZR; apply IZR_le; lia). nra.
Qed.

(** ** specific volume is not small *)
Definition vX := pieces (mi 770) (mi 270) 2.
Definition vY := pieces (mi (-75)) (mi 270) 4.
Definition vZ := pieces (mi 0) (mi 500) 2.
Definition gt6 (l : coeffs) (I J K : itv) : bool := (snd (idec 6 (-4)) <? fst (ihorner l I J K))%Z.
Lemma ck_v_6 : on_boxes (gt6 teos_h) vX vY vZ = true.
Proof. vm_compute. reflexivity. Qed.
Lemma teos_gt s t p : ocean s t p -> dec 6 (-4) < teos_v s t p.
Proof.
  intros (Hs & Ht & Hp). rewrite <- teos_d_0. pose proof (x_range s ltac:(lra)) as Hx.
  unfold teos_d. cbn [D Nat.iter nat_rect pow]. rewrite <- teos_horner. set (x := teos_x (Rmax s 0)) in *.
  destruct (pieces_mi 2 770 270 x) as (I & HI & HI'); [lia|cbn; lra|].
  destruct (pieces_mi 4 (-75) 270 (t * tf)) as (J & HJ & HJ'); [lia|rewrite tf_val; cbn; lra|].
  destruct (pieces_mi 2 0 500 (p * pf)) as (K & HK & HK'); [lia|rewrite pf_val; cbn; lra|].
  assert (A : dec 6 (-4) < rhorner teos_h x (t * tf) (p * pf)).
  { eapply in_lt; [apply idec_ok|apply (ihorner_ok _ _ _ _ _ _ _ HI' HJ' HK')|]. apply (on_boxes_ok _ _ _ _ ck_v_6); assumption. }
  lra.
Qed.

(** ** the densities computed at the levels *)
Definition dens (e y : f64) : f64 := if ltb (lit 1 0) e then y else div (lit 1 0) y.

Record potdens64 (f : f64 -> f64 -> f64 -> res f64) (ref : f64) (D : domain) (rho : R -> R -> R) (η : R) : Prop := {
  pq_water : exists e d B, f (lit 345 (-1)) (lit 3 0) (lit 1000 0) = Ok e
    /\ (forall s t vs vt, holds s (Fin vs) -> holds t (Fin vt) -> dS D vs -> dT D vt ->
         exists y, f s t ref = Ok y /\ 1 <= fval (dens e y) <= 4000 /\ S_float.within (dens e y) (rho vs vt) d /\ Rabs (rho vs vt) <= B)
    /\ 0 <= d /\ B + B + d + d <= 1000000 /\ d + d + (u64 * (B + B + d + d) + eta64) <= η;
  pq_nan : forall t p, f (S754_nan : f64) t p = Ok S754_nan }.

Lemma base_nan_s eos rho s0 e d B : base64 eos rho s0 e d B -> forall t p : f64, eos NAN t p = Ok NAN.
Proof.
  intros [dv e0 d0 [-> | ->] _|dv e0 d0 [-> | ->] _|e0 d0 _] t p.
  - unfold jmd95_rho. nan64. reflexivity.
  - unfold jmd95_rho. nan64. rewrite ?adiv_nan_r. cbn [bind]. nan64. reflexivity.
  - unfold jmdfwg06_rho. nan64. reflexivity.
  - unfold jmdfwg06_rho. nan64. rewrite ?adiv_nan_r. cbn [bind]. nan64. reflexivity.
  - unfold gsw_specvol. nan64. reflexivity.
Qed.
Lemma make_nan_s name v s0 e d B grav rho_c f : named_eos name v -> limits64 name s0 e d B -> make_eos sdiv (AStr name) grav rho_c = Ok (F1 f) ->
  forall t p : f64, f NAN t p = Ok NAN.
Proof.
  intros Hn HL E t p. destruct (base_named name v s0 e d B Hn HL) as (f0 & Hb & Ef). specialize (Ef grav rho_c).
  unfold _process_eos in Ef. rewrite E in Ef. cbn [bind] in Ef. pose proof (base_nan_s _ _ _ _ _ _ Hb) as H.
  destruct grav as [g|]; [destruct rho_c as [r|]|]; injection Ef as ->; apply H.
Qed.

Lemma coord_range grav rho_c zp pm y : coordinate64 grav rho_c zp pm -> 0 <= y <= pm -> 0 <= y * zp <= 10000.
Proof.
  intros H Hy. assert (A : 0 <= zp /\ pm * zp <= 10000).
  { destruct grav as [g|]; [destruct rho_c as [r|]|]; [destruct H as (_ & _ & _ & _ & _ & H & _ & H')|destruct H as [-> ->]|destruct H as [-> ->]]; lra. }
  split; [apply Rmult_le_pos; lra|]. apply Rle_trans with (pm * zp); [apply Rmult_le_compat_r; lra|lra].
Qed.

Lemma h345 : holds (lit 345 (-1) : f64) (Fin (69 / 2)).
Proof. unfold holds. const64 4855443348258816%positive (-47)%Z. Qed.
Lemma h1000 : holds (lit 1000 0 : f64) (Fin 1000).
Proof. unfold holds. const64 8796093022208000%positive (-43)%Z. Qed.

Lemma inv_within (y : f64) v d : S_float.within y v d -> dec 6 (-4) < v <= dec 15 (-4) -> 0 <= d <= dec 196 (-19) ->
  S_float.within (div (lit 1 0) y : f64) (1 / v) (dec 547 (-13)).
Proof.
  intros [F H] Hv Hd. assert (D6 : dec 6 (-4) = 6 / 10000) by (unfold dec; simpl; lra). assert (D15 : dec 15 (-4) = 15 / 10000) by (unfold dec; simpl; lra).
  assert (D2 : dec 196 (-19) = 196 / 10000000000000000000) by (unfold dec; simpl; lra). assert (D54 : dec 547 (-13) = 547 / 10000000000000) by (unfold dec; simpl; lra).
  rewrite D6, D15 in Hv. rewrite D2 in Hd. rewrite D54. apply abs_le_of in H. destruct fl_one as [F1 V1].
  assert (Hy : 599999 / 1000000000 <= fval y) by lra. set (w := fval y) in *.
  assert (Iw : 0 < / w <= 1667).
  { split; [apply Rinv_0_lt_compat; lra|]. replace 1667 with (/ / 1667) by (field; lra). apply Rinv_le; lra. }
  assert (Iv : 0 < / v <= 10000 / 6).
  { split; [apply Rinv_0_lt_compat; lra|]. replace (10000 / 6) with (/ (6 / 10000)) by (field; lra). apply Rinv_le; lra. }
  set (o := lit 1 0 : f64) in *. destruct (sf_div_near o y F1 F) as [Fd Ed]; fold w; [lra| |].
  { rewrite V1. apply small_big. unfold Rdiv. rewrite Rmult_1_l. apply Rabs_le. lra. }
  change (sf_div o y) with (div o y : f64) in *. fold w in Ed. rewrite V1 in Ed. split; [exact Fd|].
  replace (1 / w) with (/ w) in Ed by (unfold Rdiv; ring). rewrite (Rabs_pos_eq (/ w)) in Ed by lra.
  assert (Ee : eta64 <= powerRZ 2 (-60)) by (unfold eta64; apply pow2_le; lia).
  assert (E60 : powerRZ 2 (-60) = / 1152921504606846976) by (simpl; lra). rewrite E60 in Ee.
  assert (U : u64 = / 9007199254740992) by reflexivity. rewrite U in Ed.
  assert (Hdiff : Rabs (/ w - 1 / v) <= 196 / 10000000000000000000 * (10000 / 6 * (10001 / 10000) * (10000 / 6))).
  { replace (/ w - 1 / v) with ((v - w) * (/ w * / v)) by (field; lra). rewrite Rabs_mult, (Rabs_pos_eq (/ w * / v)) by (apply Rmult_le_pos; lra).
    assert (I2 : / w * / v <= 10000 / 6 * (10001 / 10000) * (10000 / 6)).
    { apply Rmult_le_compat; try lra. replace (10000 / 6 * (10001 / 10000)) with (/ (6 / 10000 * (10000 / 10001))) by (field; lra). apply Rinv_le; lra. }
    assert (Vw : Rabs (v - w) <= 196 / 10000000000000000000) by (apply Rabs_le; lra).
    apply Rmult_le_compat; try lra. - apply Rabs_pos. - apply Rmult_le_pos; lra. }
  apply abs_le_of in Ed. apply abs_le_of in Hdiff. apply Rabs_le. lra.
Qed.

Lemma ml_room name v s0 d' B grav rho_c zp pm (ref : f64) : named_eos name v -> limits64 name s0 (dec 1 (-13)) d' B -> coordinate64 grav rho_c zp pm ->
  1000 <= pm -> finite64 ref -> 0 <= fval ref <= pm ->
  exists f d, make_eos sdiv (AStr name) grav rho_c = Ok (F1 f) /\ 0 <= d <= / 1000 /\ d + 3 * (u64 * (B + d) + eta64) <= d' /\ B <= 10000
    /\ (forall t p : f64, f NAN t p = Ok NAN)
    /\ (exists e : f64, f (lit 345 (-1)) (lit 3 0) (lit 1000 0) = Ok e /\ S_float.within e (v (69 / 2) 3 (1000 * zp)) d /\ Rabs (v (69 / 2) 3 (1000 * zp)) <= B
        /\ ocean (69 / 2) 3 (1000 * zp))
    /\ forall s t vs vt, holds s (Fin vs) -> holds t (Fin vt) -> dS (sea s0 pm) vs -> dT (sea s0 pm) vt ->
       exists y : f64, f s t ref = Ok y /\ S_float.within y (v vs vt (fval ref * zp)) d /\ Rabs (v vs vt (fval ref * zp)) <= B /\ ocean vs vt (fval ref * zp).
Proof.
  intros Hn HL Hco Hpm Fr Hr. destruct (entry_room name v s0 _ d' B grav rho_c zp pm Hn HL Hco) as (f & d & Ef & [H0 H1 H2 H3 H4 H5 _ _ H8 _ _]).
  exists f, d. split; [exact Ef|]. split; [lra|]. split; [exact H5|]. split; [lra|].
  split; [exact (make_nan_s name v s0 _ d' B grav rho_c f Hn HL Ef)|].
  assert (He : 0 <= dec 1 (-13)) by (unfold dec; simpl; lra). assert (He' : 0 <= dec 3 (-12)) by (unfold dec; simpl; lra).
  assert (Hs0 : s0 <= 1) by (inversion HL; lra).
  assert (A : forall s t p vs vt vp, holds s (Fin vs) -> holds t (Fin vt) -> holds p (Fin vp) -> dS (sea s0 pm) vs -> dT (sea s0 pm) vt -> dP (sea s0 pm) vp ->
     exists y : f64, f s t p = Ok y /\ S_float.within y (v vs vt (vp * zp)) d /\ Rabs (v vs vt (vp * zp)) <= B /\ ocean vs vt (vp * zp)).
  { intros s t p vs vt vp [Fs Vs] [Ft Vt] [Fp Vp] Ds Dt Dp.
    destruct (H1 s t p vs vt vp Ds Dt Dp) as (Hb & y & Ey & Wy).
    - rewrite <- Vs. apply within_self; assumption.
    - rewrite <- Vt. apply within_self; assumption.
    - rewrite <- Vp. apply within_self; assumption.
    - exists y. unfold at_depth in *. split; [exact Ey|]. split; [exact Wy|]. split; [exact Hb|].
      cbn [sea box dS dT dP] in Ds, Dt, Dp. unfold upto in *. split; [lra|]. split; [lra|].
      exact (coord_range grav rho_c zp pm vp Hco Dp). }
  split.
  - apply (A _ _ _ (69 / 2) 3 1000); [exact h345|exact fl_three|exact h1000| | |]; cbn [sea box dS dT dP]; unfold upto; lra.
  - intros s t vs vt Hs Ht Ds Dt. apply (A s t ref vs vt (fval ref)); try assumption.
    split; [exact Fr|reflexivity].
Qed.

Lemma potdens_named name rho s0 η grav rho_c zp pm (ref : f64) : density name rho -> excess64 name s0 η -> coordinate64 grav rho_c zp pm ->
  1000 <= pm -> finite64 ref -> 0 <= fval ref <= pm ->
  exists f, make_eos sdiv (AStr name) grav rho_c = Ok (F1 f) /\ potdens64 f ref (sea s0 pm) (fun s t => rho s t (fval ref * zp)) η.
Proof.
  intros Hd Hx Hco Hpm Fr Hr. pose proof eta_1e30 as Ee. pose proof eta64_pos as E0. destruct fl_one as [F0 V1].
  assert (J : forall v d' B, named_eos name v -> limits64 name s0 (dec 1 (-13)) d' B -> (forall s t p, ocean s t p -> 2 < v s t p) -> rho = v ->
     B <= 2000 -> d' <= / 1000 -> 2 * d' <= η ->
     exists f, make_eos sdiv (AStr name) grav rho_c = Ok (F1 f) /\ potdens64 f ref (sea s0 pm) (fun s t => rho s t (fval ref * zp)) η).
  { intros v d' B Hn HL Hv -> HB Hd' Hη. destruct (ml_room name v s0 d' B grav rho_c zp pm ref Hn HL Hco Hpm Fr Hr) as (f & d & Ef & Hd0 & Hdd & _ & Hnan & (e & Ee' & [Fe We] & _ & Oe) & Hw).
    exists f. split; [exact Ef|]. constructor; [|exact Hnan]. exists e, d, B. split; [exact Ee'|].
    assert (L1 : ltb (lit 1 0 : f64) e = true).
    { change (ltb (lit 1 0 : f64) e) with (SFltb (lit 1 0 : f64) e). rewrite ltb_val, V1 by assumption. apply Rlt_bool_true.
      pose proof (Hv _ _ _ Oe). apply abs_le_of in We. lra. }
    assert (U : u64 = / 9007199254740992) by reflexivity.
    assert (HB0 : 0 <= B) by (clear - HL; inversion HL; subst; unfold dec; simpl; lra).
    split; [|split; [lra|split; [lra|rewrite U in *; lra]]].
    intros s t vs vt Hs Ht Ds Dt. destruct (Hw s t vs vt Hs Ht Ds Dt) as (y & Ey & Wy & Hb & Ho). exists y. unfold dens. rewrite L1. split; [exact Ey|].
    pose proof (Hv _ _ _ Ho) as H2. split; [|split; [exact Wy|exact Hb]].
    destruct Wy as [_ Wy]. apply abs_le_of in Wy. apply Rabs_le_inv in Hb.
    lra. }
  destruct Hd; inversion Hx; subst; clear Hx.
  - assert (HL : limits64 "gsw" 0 (dec 1 (-13)) (dec 2 (-17)) (dec 15 (-4))) by (constructor; constructor).
    destruct (ml_room "gsw" teos_v 0 _ _ grav rho_c zp pm ref n_gsw HL Hco Hpm Fr Hr) as (f & d & Ef & Hd0 & Hdd & _ & Hnan & (e & Ee' & [Fe We] & Be & Oe) & Hw).
    exists f. split; [exact Ef|]. constructor; [|exact Hnan]. exists e, (dec 547 (-13)), (dec 1667 0). split; [exact Ee'|].
    assert (D15 : dec 15 (-4) = 15 / 10000) by (unfold dec; simpl; lra). assert (D6 : dec 6 (-4) = 6 / 10000) by (unfold dec; simpl; lra).
    assert (L1 : ltb (lit 1 0 : f64) e = false).
    { change (ltb (lit 1 0 : f64) e) with (SFltb (lit 1 0 : f64) e). rewrite ltb_val, V1 by assumption. apply Rlt_bool_false.
      apply abs_le_of in We. apply Rabs_le_inv in Be. lra. }
    assert (U : u64 = / 9007199254740992) by reflexivity.
    assert (Hd2 : d <= dec 196 (-19)).
    { assert (D2 : dec 2 (-17) = 2 / 100000000000000000) by (unfold dec; simpl; lra). assert (D195 : dec 196 (-19) = 196 / 10000000000000000000) by (unfold dec; simpl; lra).
      rewrite U, D15, D2 in Hdd. rewrite D195. lra. }
    split; [|unfold dec; simpl; rewrite U; lra].
    intros s t vs vt Hs Ht Ds Dt. destruct (Hw s t vs vt Hs Ht Ds Dt) as (y & Ey & Wy & Hb & Ho). exists y. unfold dens. rewrite L1. split; [exact Ey|].
    pose proof (teos_gt _ _ _ Ho) as H2. apply Rabs_le_inv in Hb.
    pose proof (inv_within y _ d Wy ltac:(lra) ltac:(lra)) as Wi. rewrite D15 in Hb. rewrite D6 in H2.
    assert (I1 : / (15 / 10000) <= 1 / teos_v vs vt (fval ref * zp)) by (unfold Rdiv at 2; rewrite Rmult_1_l; apply Rinv_le; lra).
    assert (I2 : 1 / teos_v vs vt (fval ref * zp) <= / (6 / 10000)) by (unfold Rdiv at 1; rewrite Rmult_1_l; apply Rinv_le; lra).
    replace (/ (15 / 10000)) with (10000 / 15) in I1 by (field; lra). replace (/ (6 / 10000)) with (10000 / 6) in I2 by (field; lra).
    split; [|split; [exact Wi|]].
    + destruct Wi as [_ Wi]. apply abs_le_of in Wi. assert (D5 : dec 547 (-13) = 547 / 10000000000000) by (unfold dec; simpl; lra). rewrite D5 in Wi. lra.
    + apply Rabs_le. unfold dec. simpl. lra.
  - apply (J jm_rho (dec 3 (-12)) (dec 1100 0)); [constructor|constructor; constructor|exact jm_gt_2|reflexivity| | |]; unfold dec; simpl; lra.
  - apply (J jf_rho (dec 9 (-12)) (dec 1600 0)); [constructor|constructor; constructor|exact jf_gt_2|reflexivity| | |]; unfold dec; simpl; lra.
Qed.
