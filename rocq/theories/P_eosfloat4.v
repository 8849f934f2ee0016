(** * Computed densities of water whose salinity, temperature and pressure are slightly off *)
From Coq Require Import ZArith Reals Bool Lia Lra Psatz SpecFloat List.
From Flocq Require Import Raux.
From Verif Require Import Num XR SF Res M_eos_base M_jmd95 M_jmdfwg06 M_gsw S_eos S_float P_float P_floaterr P_eosfloat P_eosfloat2 P_eosfloat3
  P_eos P_gsw P_gsw2 P_gsw3 P_eosx P_eosocean P_eosocean2 S_domain S_vert64.
Import ListNotations.
Open Scope R_scope.

Definition err (k : Z) : Z := (upU 1 / 10 ^ k + 1)%Z.
Definition milli : Z := (upU 1 / 1000)%Z.
Definition off_s (k : positive) : ev := Ev milli (upU 42) (err (Zpos k)).
Definition off_s0 (k : positive) : ev := Ev (upU 0) (upU 42) (err (Zpos k)).
Definition off_t (k : positive) : ev := Ev (upU (-3)) (upU 40) (err (Zpos k)).
Definition off_p : ev := Ev (upU 0) (upU 10000) (err 11).

Lemma err_ok k d : (0 < 10 ^ k)%Z -> d <= / IZR (10 ^ k) -> d * UR <= IZR (err k).
Proof.
  intros P H. unfold err. rewrite upU_eq, Z.mul_1_l, plus_IZR. assert (D := Zdiv_R UZ (10 ^ k) P). rewrite <- UR_UZ in D.
  assert (U := UR_pos). apply Rle_trans with (/ IZR (10 ^ k) * UR); [apply Rmult_le_compat_r; lra|].
  unfold Rdiv in D. rewrite Rmult_comm. change (IZR 1) with 1. lra.
Qed.

Lemma rel_off lo hi k (x : f64) v : (0 < 10 ^ k)%Z -> IZR lo <= v <= IZR hi -> within x v (/ IZR (10 ^ k)) ->
  rel (Ev (upU lo) (upU hi) (err k)) x v.
Proof.
  intros K V [F E]. split; [exact F|]. assert (U := UR_pos). rewrite !upU_eq, !mult_IZR, <- UR_UZ. split.
  - split; apply Rmult_le_compat_r; lra.
  - apply err_ok; assumption.
Qed.
Lemma milli_ok : IZR milli <= / 1000 * UR.
Proof.
  unfold milli. rewrite upU_eq, Z.mul_1_l. assert (D := Zdiv_R UZ 1000 eq_refl). rewrite <- UR_UZ in D. unfold Rdiv in D. lra.
Qed.

Lemma dec1 k : dec 1 (Zneg k) = / IZR (10 ^ Zpos k).
Proof. change (Zneg k) with (- Zpos k)%Z. rewrite dec_neg by lia. unfold Rdiv. now rewrite Rmult_1_l. Qed.

Lemma pow_pos10 k : (0 < 10 ^ Zpos k)%Z.
Proof. apply Z.pow_pos_nonneg; lia. Qed.

Lemma in_off_s k (s : f64) vs : / 1000 <= vs <= 42 -> within s vs (dec 1 (Zneg k)) -> rel (off_s k) s vs.
Proof.
  intros V [F E]. rewrite dec1 in E. split; [exact F|]. assert (U := UR_pos). split.
  - rewrite upU_eq, mult_IZR, <- UR_UZ. assert (M := milli_ok). split.
    + eapply Rle_trans; [exact M|]. apply Rmult_le_compat_r; lra.
    + apply Rmult_le_compat_r; lra.
  - apply err_ok; [apply pow_pos10|exact E].
Qed.
Lemma in_off_t k (t : f64) vt : -3 <= vt <= 40 -> within t vt (dec 1 (Zneg k)) -> rel (off_t k) t vt.
Proof. intros V W. rewrite dec1 in W. apply rel_off; [apply pow_pos10|simpl; lra|exact W]. Qed.
Lemma in_off_p (p : f64) vp : 0 <= vp <= 10000 -> within p vp (dec 1 (-11)) -> rel off_p p vp.
Proof. intros V W. rewrite dec1 in W. apply rel_off; [reflexivity|simpl; lra|exact W]. Qed.
Lemma in_off_s0 k (s : f64) vs : 0 <= vs <= 42 -> within s vs (dec 1 (Zneg k)) -> rel (off_s0 k) (npmaximum s (lit 0 0)) (Rmax vs 0).
Proof.
  intros V [F E]. rewrite dec1 in E. rewrite Rmax_left by lra. destruct (max0 s F) as [F' E'].
  apply rel_off; [apply pow_pos10|simpl; lra|]. split; [exact F'|].
  assert (E'' : fval (npmaximum s (lit 0 0)) = Rmax (fval s) 0) by exact E'. rewrite E''.
  apply Rabs_le_inv in E. apply Rabs_le. unfold Rmax. destruct (Rle_dec (fval s) 0); lra.
Qed.

(** the magnitude is at most m 10^-k *)
Definition sized (r : res ev) (m k : Z) : bool :=
  match r with Ok (Ev lo hi _) => (mag lo hi * 10 ^ k <=? upU m)%Z | _ => false end.
Lemma sized_ok ra rx v m k : (0 <= k)%Z -> rrel rel ra rx (Ok v) -> sized ra m k = true -> Rabs v <= dec m (- k).
Proof.
  intros K H S. destruct ra as [[|lo hi er]|]; try discriminate. destruct H as (x & v' & -> & E & _ & V & _).
  injection E as <-. simpl in S. apply Z.leb_le, IZR_le in S. rewrite upU_eq, !mult_IZR, <- UR_UZ in S.
  apply mag_ok in V. rewrite dec_neg by exact K. assert (U := UR_pos). rewrite Rabs_mult, (Rabs_pos_eq UR) in V by lra.
  assert (P : 0 < IZR (10 ^ k)) by (apply (IZR_lt 0), Z.pow_pos_nonneg; lia).
  apply Rdiv_le_l; [exact P|]. set (d := Rabs v) in *. nra.
Qed.

Definition ckd (r : res ev) (m k m' k' : Z) : bool := small1 r m k && sized r m' k'.
Lemma ckd_ok ra rx v m k m' k' : (0 <= k)%Z -> (0 <= k')%Z -> rrel rel ra rx (Ok v) -> ckd ra m k m' k' = true ->
  Rabs v <= dec m' (- k') /\ exists y, rx = Ok y /\ within y v (dec m (- k)).
Proof.
  intros K K' H S. apply andb_true_iff in S as [S1 S2]. split.
  - exact (sized_ok _ _ _ _ _ K' H S2).
  - exact (small1_ok _ _ _ _ _ K H S1).
Qed.

Lemma ckd_jm13 : ckd (jmd95_rho e_dv (off_s 13) (off_t 13) off_p) 254 14 1100 0 = true. Proof. vm_compute. reflexivity. Qed.
Lemma ckd_jm12 : ckd (jmd95_rho e_dv (off_s 12) (off_t 12) off_p) 1704 14 1100 0 = true. Proof. vm_compute. reflexivity. Qed.
Lemma ckd_jf13 : ckd (jmdfwg06_rho e_dv (off_s 13) (off_t 13) off_p) 815 14 1600 0 = true. Proof. vm_compute. reflexivity. Qed.
Lemma ckd_jf12 : ckd (jmdfwg06_rho e_dv (off_s 12) (off_t 12) off_p) 5360 14 1600 0 = true. Proof. vm_compute. reflexivity. Qed.
Lemma ckd_v13 : ckd (gsw_specvol (off_s0 13) (off_t 13) off_p) 191 19 15 4 = true. Proof. vm_compute. reflexivity. Qed.
Lemma ckd_v12 : ckd (gsw_specvol (off_s0 12) (off_t 12) off_p) 1384 19 15 4 = true. Proof. vm_compute. reflexivity. Qed.

Section Off.
  Variables (k : positive) (m : Z).

  Lemma jm_eos64 (dv : f64 -> f64 -> res f64) : dv = sdiv \/ dv = adiv -> ckd (jmd95_rho e_dv (off_s k) (off_t k) off_p) m 14 1100 0 = true ->
    eos64_on (box (/ 1000) 42 (-3) 40 0 10000) (jmd95_rho dv) jm_rho (dec 1 (Zneg k)) (dec 1 (Zneg k)) (dec 1 (-11)) (dec m (-14)) (dec 1100 0).
  Proof.
    intros Hdv Hck s t p vs vt vp Ds Dt Dp Ws Wt Wp. cbn [box dS dT dP] in *. unfold upto in *.
    assert (O : ocean vs vt vp) by (repeat split; lra). assert (D := pair_of dv Hdv).
    destruct (jm_all sdiv (or_introl eq_refl) _ _ _ (jm_ocean_dom _ _ _ O)) as (E1 & _).
    assert (K := jmd95_rho_rel dv sdiv D _ _ _ _ _ _ _ _ _ (in_off_s k s vs Ds Ws) (in_off_t k t vt Dt Wt) (in_off_p p vp Dp Wp)).
    rewrite E1 in K. exact (ckd_ok _ _ _ m 14 1100 0 ltac:(lia) ltac:(lia) K Hck).
  Qed.
  Lemma jf_eos64 (dv : f64 -> f64 -> res f64) : dv = sdiv \/ dv = adiv -> ckd (jmdfwg06_rho e_dv (off_s k) (off_t k) off_p) m 14 1600 0 = true ->
    eos64_on (box (/ 1000) 42 (-3) 40 0 10000) (jmdfwg06_rho dv) jf_rho (dec 1 (Zneg k)) (dec 1 (Zneg k)) (dec 1 (-11)) (dec m (-14)) (dec 1600 0).
  Proof.
    intros Hdv Hck s t p vs vt vp Ds Dt Dp Ws Wt Wp. cbn [box dS dT dP] in *. unfold upto in *.
    assert (O : ocean vs vt vp) by (repeat split; lra). assert (D := pair_of dv Hdv).
    destruct (jf_all sdiv (or_introl eq_refl) _ _ _ (jf_ocean_dom _ _ _ O)) as (E1 & _).
    assert (K := jmdfwg06_rho_rel dv sdiv D _ _ _ _ _ _ _ _ _ (in_off_s k s vs Ds Ws) (in_off_t k t vt Dt Wt) (in_off_p p vp Dp Wp)).
    rewrite E1 in K. exact (ckd_ok _ _ _ m 14 1600 0 ltac:(lia) ltac:(lia) K Hck).
  Qed.
  Lemma teos_eos64 : ckd (gsw_specvol (off_s0 k) (off_t k) off_p) m 19 15 4 = true ->
    eos64_on (box 0 42 (-3) 40 0 10000) gsw_specvol teos_v (dec 1 (Zneg k)) (dec 1 (Zneg k)) (dec 1 (-11)) (dec m (-19)) (dec 15 (-4)).
  Proof.
    intros Hck s t p vs vt vp Ds Dt Dp Ws Wt Wp. cbn [box dS dT dP] in *. unfold upto in *.
    destruct teos_all as (h & h0 & _ & _ & _ & hd).
    destruct (hd sdiv (or_introl eq_refl) vs vt vp) as (E1 & _). rewrite h0 in E1.
    assert (K := specvol_rel _ _ _ _ _ _ _ _ _ (in_off_s0 k s vs Ds Ws) (in_off_t k t vt Dt Wt) (in_off_p p vp Dp Wp)).
    rewrite E1 in K. exact (ckd_ok _ _ _ m 19 15 4 ltac:(lia) ltac:(lia) K Hck).
  Qed.
End Off.
