(** * Rounding errors of the equations of state over the oceanographic range *)
From Coq Require Import ZArith Reals Bool Lia Lra Psatz SpecFloat List.
From Flocq Require Import BinarySingleNaN Raux.
From Verif Require Import Num SF Res M_eos_base M_jmd95 M_jmdfwg06 M_gsw S_eos S_float P_float P_floaterr P_eosfloat
  P_eos P_gsw P_gsw2 P_gsw3 P_eosx P_eosocean P_eosocean2.
Import ListNotations.
Open Scope R_scope.

Definition box_s : ev := Ev (upU 0) (upU 42) 0.
Definition box_t : ev := Ev (upU (-3)) (upU 40) 0.
Definition box_p : ev := Ev (upU 0) (upU 10000) 0.

Lemma rel_box lo hi x : finite64 x -> IZR lo <= fval x <= IZR hi -> rel (Ev (upU lo) (upU hi) 0) x (fval x).
Proof. intros F V. rewrite !upU_eq. now apply rel_in. Qed.

(** er <= m 10^-k *)
Definition small (a : ev) (m k : Z) : bool :=
  match a with Ev _ _ er => (er * 10 ^ k <=? upU m)%Z | Top => false end.
Definition small1 (r : res ev) (m k : Z) : bool := match r with Ok a => small a m k | Err _ => false end.
Definition small2 (r : res (ev * ev)) (m k m' k' : Z) : bool :=
  match r with Ok (a, b) => small a m k && small b m' k' | Err _ => false end.
Definition above (r : res ev) (m k : Z) : bool :=
  match r with Ok (Ev lo _ _) => (upU m <=? lo * 10 ^ k)%Z | _ => false end.

Lemma dec_neg m k : (0 <= k)%Z -> dec m (- k) = IZR m / IZR (10 ^ k).
Proof.
  intros K. unfold dec, Rdiv. f_equal.
  destruct k as [|q|q]; [simpl; lra| |lia].
  simpl powerRZ. f_equal. change (IZR (10 ^ Zpos q)) with (IZR (Z.pow 10 (Zpos q))). rewrite <- (positive_nat_Z q), <- pow_IZR. reflexivity.
Qed.

Lemma small_ok a x v m k : (0 <= k)%Z -> rel a x v -> small a m k = true -> within x v (dec m (- k)).
Proof.
  intros K H S. destruct a as [|lo hi er]; [discriminate|]. destruct H as (F & _ & E). split; [exact F|].
  simpl in S. apply Z.leb_le, IZR_le in S. rewrite upU_eq, !mult_IZR, <- UR_UZ in S.
  rewrite dec_neg by exact K.
  assert (P : 0 < IZR (10 ^ k)) by (apply (IZR_lt 0), Z.pow_pos_nonneg; lia).
  apply Rdiv_le_l; [exact P|]. assert (U := UR_pos).
  apply Rmult_le_reg_r with UR; [exact U|]. set (d := Rabs (fval x - v)) in *. nra.
Qed.

Lemma small1_ok ra rx v m k : (0 <= k)%Z -> rrel rel ra rx (Ok v) -> small1 ra m k = true ->
  exists y, rx = Ok y /\ within y v (dec m (- k)).
Proof.
  intros K H S. destruct ra as [a|]; [|discriminate]. destruct H as (x & v' & -> & E & H).
  injection E as <-. exists x. split; [reflexivity|]. now apply small_ok with a.
Qed.

Lemma small2_ok ra rx v w m k m' k' : (0 <= k)%Z -> (0 <= k')%Z -> rrel rel2 ra rx (Ok (v, w)) -> small2 ra m k m' k' = true ->
  exists y z, rx = Ok (y, z) /\ within y v (dec m (- k)) /\ within z w (dec m' (- k')).
Proof.
  intros K K' H S. destruct ra as [[a b]|]; [|discriminate]. destruct H as ([x x'] & [v' w'] & -> & E & A & B).
  injection E as <- <-. simpl in S. apply andb_true_iff in S as [S1 S2]. cbn [fst snd] in A, B.
  exists x, x'. split; [reflexivity|]. split; [now apply small_ok with a|now apply small_ok with b].
Qed.

Lemma above_ok ra rx v m k : (0 <= k)%Z -> rrel rel ra rx (Ok v) -> above ra m k = true -> dec m (- k) <= v.
Proof.
  intros K H S. destruct ra as [[|lo hi er]|]; try discriminate. destruct H as (x & v' & -> & E & _ & V & _).
  injection E as <-. simpl in S. apply Z.leb_le, IZR_le in S. rewrite upU_eq, !mult_IZR, <- UR_UZ in S.
  rewrite dec_neg by exact K.
  assert (P : 0 < IZR (10 ^ k)) by (apply (IZR_lt 0), Z.pow_pos_nonneg; lia).
  assert (U := UR_pos). apply Rdiv_le_r; [exact P|]. nra.
Qed.

(** ** the computations *)
Lemma ck_jm : small1 (jmd95_rho e_dv box_s box_t box_p) 85 14 = true.
Proof. vm_compute. reflexivity. Qed.
Lemma ck_jm_p : small1 (jmd95_rho_p e_dv box_s box_t box_p) 67 18 = true.
Proof. vm_compute. reflexivity. Qed.
Lemma ck_jm_st : small2 (jmd95_rho_s_t e_dv box_s box_t box_p) 53 16 93 16 = true.
Proof. vm_compute. reflexivity. Qed.
Lemma ck_jf : small1 (jmdfwg06_rho e_dv box_s box_t box_p) 29 13 = true.
Proof. vm_compute. reflexivity. Qed.
Lemma ck_jf_p : small1 (jmdfwg06_rho_p e_dv box_s box_t box_p) 41 18 = true.
Proof. vm_compute. reflexivity. Qed.
Lemma ck_jf_st : small2 (jmdfwg06_rho_s_t e_dv box_s box_t box_p) 12 15 57 15 = true.
Proof. vm_compute. reflexivity. Qed.
Lemma ck_v : small1 (gsw_specvol box_s box_t box_p) 57 19 = true.
Proof. vm_compute. reflexivity. Qed.
Lemma ck_v_p : small1 (gsw_specvol_p box_s box_t box_p) 43 24 = true.
Proof. vm_compute. reflexivity. Qed.
Lemma ck_v_st : small2 (gsw_specvol_s_t e_dv box_s box_t box_p) 29 20 27 21 = true.
Proof. vm_compute. reflexivity. Qed.
(** ** jmd95 *)
Section Range.
  Variables s t p : f64.
  Hypothesis (Fs : finite64 s) (Ft : finite64 t) (Fp : finite64 p).
  Hypothesis H : ocean (fval s) (fval t) (fval p).

  Lemma in_s : rel box_s s (fval s). Proof. destruct H as (A & _). apply rel_box; [exact Fs|]. simpl. lra. Qed.
  Lemma in_t : rel box_t t (fval t). Proof. destruct H as (_ & A & _). apply rel_box; [exact Ft|]. simpl. lra. Qed.
  Lemma in_p : rel box_p p (fval p). Proof. destruct H as (_ & _ & A). apply rel_box; [exact Fp|]. simpl. lra. Qed.
End Range.

Lemma pair_of dv : dv = sdiv \/ dv = adiv -> dv_pair dv sdiv.
Proof. intros E. split; [exact E|now left]. Qed.

Lemma jm_float : forall dv : f64 -> f64 -> res f64, dv = sdiv \/ dv = adiv -> forall s t p,
  finite64 s -> finite64 t -> finite64 p -> ocean (fval s) (fval t) (fval p) ->
  (exists y, jmd95_rho dv s t p = Ok y /\ within y (jm_rho (fval s) (fval t) (fval p)) (dec 85 (-14))) /\
  (exists y r, jmd95_rho_p dv s t p = Ok y /\ diff_p jm_rho (fval s) (fval t) (fval p) r /\ within y r (dec 67 (-18))) /\
  (0 < fval s -> exists y z rs rt, jmd95_rho_s_t dv s t p = Ok (y, z) /\
     diff_s jm_rho (fval s) (fval t) (fval p) rs /\ diff_t jm_rho (fval s) (fval t) (fval p) rt /\
     within y rs (dec 53 (-16)) /\ within z rt (dec 93 (-16))).
Proof.
  intros dv Hdv s t p Fs Ft Fp H. assert (D := pair_of dv Hdv).
  assert (A := in_s s t p Fs H). assert (B := in_t s t p Ft H). assert (C := in_p s t p Fp H).
  destruct (jm_all sdiv (or_introl eq_refl) _ _ _ (jm_ocean_dom _ _ _ H)) as (E1 & (rp & E2 & Dp) & E3).
  split; [|split].
  - assert (K := jmd95_rho_rel dv sdiv D _ _ _ _ _ _ _ _ _ A B C). rewrite E1 in K.
    exact (small1_ok _ _ _ 85 14 ltac:(lia) K ck_jm).
  - assert (K := jmd95_rho_p_rel dv sdiv D _ _ _ _ _ _ _ _ _ A B C). rewrite E2 in K.
    destruct (small1_ok _ _ _ 67 18 ltac:(lia) K ck_jm_p) as (y & Ey & W). exists y, rp. exact (conj Ey (conj Dp W)).
  - intros S0. destruct (E3 S0) as (rs & rt & E4 & Ds & Dt).
    assert (K := jmd95_rho_s_t_rel dv sdiv D _ _ _ _ _ _ _ _ _ A B C). rewrite E4 in K.
    destruct (small2_ok _ _ _ _ 53 16 93 16 ltac:(lia) ltac:(lia) K ck_jm_st) as (y & z & Ey & W1 & W2).
    exists y, z, rs, rt. exact (conj Ey (conj Ds (conj Dt (conj W1 W2)))).
Qed.

Lemma jf_float : forall dv : f64 -> f64 -> res f64, dv = sdiv \/ dv = adiv -> forall s t p,
  finite64 s -> finite64 t -> finite64 p -> ocean (fval s) (fval t) (fval p) ->
  (exists y, jmdfwg06_rho dv s t p = Ok y /\ within y (jf_rho (fval s) (fval t) (fval p)) (dec 29 (-13))) /\
  (exists y r, jmdfwg06_rho_p dv s t p = Ok y /\ diff_p jf_rho (fval s) (fval t) (fval p) r /\ within y r (dec 41 (-18))) /\
  (0 < fval s -> exists y z rs rt, jmdfwg06_rho_s_t dv s t p = Ok (y, z) /\
     diff_s jf_rho (fval s) (fval t) (fval p) rs /\ diff_t jf_rho (fval s) (fval t) (fval p) rt /\
     within y rs (dec 12 (-15)) /\ within z rt (dec 57 (-15))).
Proof.
  intros dv Hdv s t p Fs Ft Fp H. assert (D := pair_of dv Hdv).
  assert (A := in_s s t p Fs H). assert (B := in_t s t p Ft H). assert (C := in_p s t p Fp H).
  destruct (jf_all sdiv (or_introl eq_refl) _ _ _ (jf_ocean_dom _ _ _ H)) as (E1 & (rp & E2 & Dp) & E3).
  split; [|split].
  - assert (K := jmdfwg06_rho_rel dv sdiv D _ _ _ _ _ _ _ _ _ A B C). rewrite E1 in K.
    exact (small1_ok _ _ _ 29 13 ltac:(lia) K ck_jf).
  - assert (K := jmdfwg06_rho_p_rel dv sdiv D _ _ _ _ _ _ _ _ _ A B C). rewrite E2 in K.
    destruct (small1_ok _ _ _ 41 18 ltac:(lia) K ck_jf_p) as (y & Ey & W). exists y, rp. exact (conj Ey (conj Dp W)).
  - intros S0. destruct (E3 S0) as (rs & rt & E4 & Ds & Dt).
    assert (K := jmdfwg06_rho_s_t_rel dv sdiv D _ _ _ _ _ _ _ _ _ A B C). rewrite E4 in K.
    destruct (small2_ok _ _ _ _ 12 15 57 15 ltac:(lia) ltac:(lia) K ck_jf_st) as (y & z & Ey & W1 & W2).
    exists y, z, rs, rt. exact (conj Ey (conj Ds (conj Dt (conj W1 W2)))).
Qed.

(** ** gsw: salinities below zero count as zero *)
Lemma sf_ltb_val x y : finite64 x -> finite64 y -> SFltb x y = Rlt_bool (fval x) (fval y).
Proof.
  intros Fx Fy. destruct (finite64_B _ Fx) as (bx & <- & Hx & Ex). destruct (finite64_B _ Fy) as (b & <- & Hy & Ey).
  rewrite <- Ex, <- Ey. exact (Bltb_correct 53 1024 bx b Hx Hy).
Qed.

Lemma max0 s : finite64 s -> finite64 (npmaximum s (lit 0 0)) /\ fval (npmaximum s (lit 0 0)) = Rmax (fval s) 0.
Proof.
  intros F. unfold npmaximum.
  assert (N : isnan s = false) by (destruct s; [reflexivity|reflexivity|elim F|reflexivity]). rewrite N.
  change (isnan (lit 0 0 : f64)) with false. cbv iota.
  change (lit 0 0 : f64) with (S754_zero false).
  change (ltb s (S754_zero false)) with (SFltb s (S754_zero false)).
  rewrite sf_ltb_val by (assumption || exact I). change (fval (S754_zero false)) with 0.
  destruct (Rlt_bool_spec (fval s) 0) as [L|L].
  - split; [exact I|]. rewrite Rmax_right by lra. reflexivity.
  - split; [exact F|]. now rewrite Rmax_left by lra.
Qed.

Lemma Rmax0 v : npmaximum v (lit 0 0 : R) = Rmax v 0.
Proof.
  unfold npmaximum. cbn [isnan RNum ltb]. change (lit 0 0 : R) with (Rlit 0 0).
  assert (Z : Rlit 0 0 = 0) by (unfold Rlit; simpl; ring). rewrite Z. unfold Rltb.
  destruct (Rlt_dec v 0); [now rewrite Rmax_right by lra|now rewrite Rmax_left by lra].
Qed.

Definition rel4 (a : ev * ev * ev * ev) (x : f64 * f64 * f64 * f64) (v : R * R * R * R) : Prop :=
  let '(a1, a2, a3, a4) := a in let '(x1, x2, x3, x4) := x in let '(v1, v2, v3, v4) := v in
  rel a1 x1 v1 /\ rel a2 x2 v2 /\ rel a3 x3 v3 /\ rel a4 x4 v4.

Lemma process_rel a b c s t p vs vt vp : rel a (npmaximum s (lit 0 0)) (Rmax vs 0) ->
  rel b t vt -> rel c p vp ->
  rrel rel4 (gsw__process a b c) (gsw__process s t p) (gsw__process vs vt vp).
Proof.
  intros A B C. unfold gsw__process.
  change (npmaximum a (lit 0 0)) with a. rewrite Rmax0.
  set (s' := npmaximum s (lit 0 0)) in *. set (v' := Rmax vs 0) in *. clearbody s' v'.
  cbv zeta. unfold tfac, pfac, sfac, offset.
  apply rrel_ok. unfold rel4. refine (conj _ (conj _ (conj _ _))); repeat rel1.
Qed.

Section Gsw.
  Variables (dx : f64 -> f64 -> res f64) (dr : R -> R -> res R).
  Hypothesis D : dv_pair dx dr.
  Variables (a b c : ev) (s t p : f64) (vs vt vp : R).
  Hypothesis (A : rel a (npmaximum s (lit 0 0)) (Rmax vs 0)) (B : rel b t vt) (C : rel c p vp).

  Lemma specvol_rel : rrel rel (gsw_specvol a b c) (gsw_specvol s t p) (gsw_specvol vs vt vp).
  Proof.
    unfold gsw_specvol. eapply rrel_bind; [apply process_rel; eassumption|].
    intros [[[a1 a2] a3] a4] [[[x1 x2] x3] x4] [[[v1 v2] v3] v4] (H1 & H2 & H3 & _).
    now apply gsw__specvol_rel.
  Qed.
  Lemma specvol_p_rel : rrel rel (gsw_specvol_p a b c) (gsw_specvol_p s t p) (gsw_specvol_p vs vt vp).
  Proof.
    unfold gsw_specvol_p. eapply rrel_bind; [apply process_rel; eassumption|].
    intros [[[a1 a2] a3] a4] [[[x1 x2] x3] x4] [[[v1 v2] v3] v4] (H1 & H2 & H3 & _).
    now apply gsw__p_rel.
  Qed.
  Lemma specvol_s_t_rel : rrel rel2 (gsw_specvol_s_t e_dv a b c) (gsw_specvol_s_t dx s t p) (gsw_specvol_s_t dr vs vt vp).
  Proof.
    unfold gsw_specvol_s_t. eapply rrel_bind; [apply process_rel; eassumption|].
    intros [[[a1 a2] a3] a4] [[[x1 x2] x3] x4] [[[v1 v2] v3] v4] (H1 & H2 & H3 & _).
    eapply rrel_bind; [apply gsw__s_rel; eassumption|]. intros y1 y2 y3 Y.
    eapply rrel_bind; [apply gsw__t_rel; eassumption|]. intros z1 z2 z3 Z.
    apply rrel_ok. now split.
  Qed.
End Gsw.

Lemma in_s0 s : finite64 s -> fval s <= 42 -> rel box_s (npmaximum s (lit 0 0)) (Rmax (fval s) 0).
Proof.
  intros F L. destruct (max0 s F) as [F' E]. rewrite <- E. apply rel_box; [exact F'|].
  rewrite E. simpl. split; [apply Rmax_r|apply Rmax_lub; lra].
Qed.

Lemma teos_float : forall dv : f64 -> f64 -> res f64, dv = sdiv \/ dv = adiv -> forall s t p,
  finite64 s -> finite64 t -> finite64 p -> fval s <= 42 -> -3 <= fval t <= 40 -> 0 <= fval p <= 10000 ->
  (exists y, gsw_specvol s t p = Ok y /\ within y (teos_v (fval s) (fval t) (fval p)) (dec 57 (-19))) /\
  (exists y r, gsw_specvol_p s t p = Ok y /\ diff_p teos_v (fval s) (fval t) (fval p) r /\ within y r (dec 43 (-24))) /\
  (0 < fval s -> exists y z rs rt, gsw_specvol_s_t dv s t p = Ok (y, z) /\
     diff_s teos_v (fval s) (fval t) (fval p) rs /\ diff_t teos_v (fval s) (fval t) (fval p) rt /\
     within y rs (dec 29 (-20)) /\ within z rt (dec 27 (-21))).
Proof.
  intros dv Hdv s t p Fs Ft Fp Hs Ht Hp. assert (D := pair_of dv Hdv).
  assert (A := in_s0 s Fs Hs).
  assert (B : rel box_t t (fval t)) by (apply rel_box; [exact Ft|simpl; lra]).
  assert (C : rel box_p p (fval p)) by (apply rel_box; [exact Fp|simpl; lra]).
  destruct teos_all as (h & h0 & hs & ht & hp & hd).
  destruct (hd sdiv (or_introl eq_refl) (fval s) (fval t) (fval p)) as (E1 & E2 & E3 & _).
  assert (X : forall u v w, h 0%nat 0%nat 0%nat u v w = teos_v u v w) by exact h0.
  split; [|split].
  - assert (K := specvol_rel _ _ _ _ _ _ _ _ _ A B C). rewrite E1, X in K.
    exact (small1_ok _ _ _ 57 19 ltac:(lia) K ck_v).
  - assert (K := specvol_p_rel _ _ _ _ _ _ _ _ _ A B C). rewrite E3 in K.
    destruct (small1_ok _ _ _ 43 24 ltac:(lia) K ck_v_p) as (y & Ey & W).
    exists y, (h 0 0 1 (fval s) (fval t) (fval p))%nat. split; [exact Ey|]. split; [|exact W].
    unfold diff_p. apply (lim_ext (fun p' => h 0 0 0 (fval s) (fval t) p')%nat); [intro; apply X|]. apply hp.
  - intros S0. assert (K := specvol_s_t_rel dv sdiv D _ _ _ _ _ _ _ _ _ A B C). rewrite E2 in K.
    destruct (small2_ok _ _ _ _ 29 20 27 21 ltac:(lia) ltac:(lia) K ck_v_st) as (y & z & Ey & W1 & W2).
    do 4 eexists. split; [exact Ey|]. split; [|split; [|split; [exact W1|exact W2]]].
    + unfold diff_s. apply (lim_ext (fun s' => h 0 0 0 s' (fval t) (fval p))%nat); [intro; apply X|].
      apply hs; [lia|exact S0].
    + unfold diff_t. apply (lim_ext (fun t' => h 0 0 0 (fval s) t' (fval p))%nat); [intro; apply X|]. apply ht.
Qed.
