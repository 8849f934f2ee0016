(** * Pressure differences that the computed densities resolve *)
From Coq Require Import ZArith Reals Bool Lia Lra Psatz SpecFloat List.
From Flocq Require Import Raux.
From Verif Require Import Num SF Res M_eos_base M_jmd95 M_jmdfwg06 M_gsw S_eos S_float P_float P_floaterr P_eosfloat P_eosfloat2
  P_eos P_gsw P_gsw2 P_gsw3 P_eosx P_eosocean P_eosocean2.
Import ListNotations.
Open Scope R_scope.

(** every real number of moderate size is close to a binary64 number *)
Lemma near_float v : 0 <= v <= 10000 -> exists x, finite64 x /\ Rabs (fval x - v) <= / 536870912.
Proof.
  intros V. set (m := Zfloor (v * 1073741824)).
  assert (M1 := Zfloor_lb (v * 1073741824)). assert (M2 := Zfloor_ub (v * 1073741824)). fold m in M1, M2.
  assert (B0 : 100000000000000 <= big64).
  { unfold big64. rewrite <- (bpow_powerRZ Zaux.radix2). apply Rle_trans with (bpow Zaux.radix2 50).
    - simpl. lra.
    - apply bpow_le. lia. }
  assert (U := u64_pos). assert (U2 : u64 <= / 9000000000000000) by (unfold u64; lra).
  assert (eta64 <= / 100000000000000).
  { unfold eta64. rewrite <- (bpow_powerRZ Zaux.radix2). apply Rle_trans with (bpow Zaux.radix2 (-60)).
    - apply bpow_le. lia.
    - simpl. lra. }
  assert (Ma : Rabs (IZR m) <= 10737418240000) by (apply Rabs_le; lra).
  destruct (sf_of_Z_near m) as [Fx Ex]; [lra|].
  destruct (sf_of_Z_near 1073741824) as [Fy Ey].
  { rewrite Rabs_pos_eq; lra. }
  assert (Y : fval (sf_of_Z 1073741824) = 1073741824).
  { assert (Z : sf_of_Z 1073741824 = S754_finite false 4503599627370496 (-22)) by (vm_compute; reflexivity).
    rewrite Z. unfold fval. rewrite <- (bpow_powerRZ Zaux.radix2). simpl. lra. }
  set (x := sf_of_Z m) in *. set (y := sf_of_Z 1073741824) in *.
  assert (Q : Rabs (fval x / fval y - v) <= / 900000000).
  { rewrite Y. replace (fval x / 1073741824 - v) with ((fval x - IZR m) / 1073741824 + (IZR m - v * 1073741824) / 1073741824) by field.
    eapply Rle_trans; [apply Rabs_triang|]. unfold Rdiv. rewrite !Rabs_mult, (Rabs_pos_eq (/ 1073741824)) by lra.
    assert (Rabs (IZR m - v * 1073741824) <= 1) by (apply Rabs_le; lra).
    assert (u64 * Rabs (IZR m) <= / 9000000000000000 * 10737418240000).
    { apply Rmult_le_compat; try lra. apply Rabs_pos. }
    lra. }
  assert (Qa : Rabs (fval x / fval y) <= 10001).
  { replace (fval x / fval y) with (v + (fval x / fval y - v)) by ring.
    eapply Rle_trans; [apply Rabs_triang|]. rewrite (Rabs_pos_eq v) by lra. lra. }
  destruct (sf_div_near x y Fx Fy) as [Fz Ez]; [lra|lra|].
  exists (sf_div x y). split; [exact Fz|].
  replace (fval (sf_div x y) - v) with ((fval (sf_div x y) - fval x / fval y) + (fval x / fval y - v)) by ring.
  eapply Rle_trans; [apply Rabs_triang|].
  assert (u64 * Rabs (fval x / fval y) <= / 9000000000000000 * 10001).
  { apply Rmult_le_compat; try lra. apply Rabs_pos. }
  lra.
Qed.

(** pressures known up to 2^-29 *)
Definition wide_p : ev := Ev (upU 0) (upU 10000) (Z.shiftl 1 91).

Lemma in_wide v : 0 <= v <= 10000 -> exists x, rel wide_p x v.
Proof.
  intros V. destruct (near_float v V) as (x & F & E). exists x. split; [exact F|].
  assert (U := UR_pos). rewrite !upU_eq, !mult_IZR, <- UR_UZ. split; [simpl; nra|].
  apply Rle_trans with (/ 536870912 * UR); [apply Rmult_le_compat_r; lra|].
  rewrite UR_val. right. rewrite <- (bpow_powerRZ Zaux.radix2).
  assert (E2 : IZR (Z.shiftl 1 91) = bpow Zaux.radix2 91).
  { rewrite <- IZR_Zpower by lia. apply f_equal. vm_compute. reflexivity. }
  rewrite E2. change 120%Z with (29 + 91)%Z. rewrite bpow_plus. 
  assert (E3 : bpow Zaux.radix2 29 = 536870912) by (simpl; lra). rewrite E3. field.
Qed.

Definition below (r : res ev) (m k : Z) : bool :=
  match r with Ok (Ev _ hi _) => (hi * 10 ^ k <=? upU m)%Z | _ => false end.
Lemma below_ok ra rx v m k : (0 <= k)%Z -> rrel rel ra rx (Ok v) -> below ra m k = true -> v <= dec m (- k).
Proof.
  intros K H S. destruct ra as [[|lo hi er]|]; try discriminate. destruct H as (x & v' & -> & E & _ & V & _).
  injection E as <-. simpl in S. apply Z.leb_le, IZR_le in S. rewrite upU_eq, !mult_IZR, <- UR_UZ in S.
  rewrite dec_neg by exact K.
  assert (P : 0 < IZR (10 ^ k)) by (apply (IZR_lt 0), Z.pow_pos_nonneg; lia).
  assert (U := UR_pos). apply Rdiv_le_l; [exact P|]. nra.
Qed.

Lemma ck_jm_slope : above (jmd95_rho_p e_dv box_s box_t wide_p) 12 4 = true.
Proof. vm_compute. reflexivity. Qed.
Lemma ck_jf_slope : above (jmdfwg06_rho_p e_dv box_s box_t wide_p) 4 4 = true.
Proof. vm_compute. reflexivity. Qed.

(** salinity in two pieces, temperature in four *)
Definition pieces_s : list (Z * Z) := [(0, 21); (21, 42)]%Z.
Definition pieces_t : list (Z * Z) := [(-3, 8); (8, 19); (19, 30); (30, 40)]%Z.
Definition boxof (q : Z * Z) : ev := Ev (upU (fst q)) (upU (snd q)) 0.
Lemma ck_v_slope :
  forallb (fun a => forallb (fun b => below (gsw_specvol_p (boxof a) (boxof b) wide_p) (-8) 10) pieces_t) pieces_s = true.
Proof. vm_compute. reflexivity. Qed.

(** slopes *)
Lemma jm_slope s t v r : finite64 s -> finite64 t -> 0 <= fval s <= 42 -> -3 <= fval t <= 40 -> 0 <= v <= 10000 ->
  diff_p jm_rho (fval s) (fval t) v r -> dec 12 (-4) <= r.
Proof.
  intros Fs Ft Hs Ht V D. destruct (in_wide v V) as (x & X).
  assert (O : ocean (fval s) (fval t) v) by (repeat split; lra).
  destruct (jm_all sdiv (or_introl eq_refl) _ _ _ (jm_ocean_dom _ _ _ O)) as (_ & (rp & E & Dp) & _).
  assert (r = rp) by exact (uniqueness_limite _ _ _ _ D Dp). subst r.
  assert (A : rel box_s s (fval s)) by (apply rel_box; [exact Fs|simpl; lra]).
  assert (B : rel box_t t (fval t)) by (apply rel_box; [exact Ft|simpl; lra]).
  assert (K := jmd95_rho_p_rel sdiv sdiv (pair_of _ (or_introl eq_refl)) _ _ _ _ _ _ _ _ _ A B X). rewrite E in K.
  exact (above_ok _ _ _ 12 4 ltac:(lia) K ck_jm_slope).
Qed.

Lemma jf_slope s t v r : finite64 s -> finite64 t -> 0 <= fval s <= 42 -> -3 <= fval t <= 40 -> 0 <= v <= 10000 ->
  diff_p jf_rho (fval s) (fval t) v r -> dec 4 (-4) <= r.
Proof.
  intros Fs Ft Hs Ht V D. destruct (in_wide v V) as (x & X).
  assert (O : ocean (fval s) (fval t) v) by (repeat split; lra).
  destruct (jf_all sdiv (or_introl eq_refl) _ _ _ (jf_ocean_dom _ _ _ O)) as (_ & (rp & E & Dp) & _).
  assert (r = rp) by exact (uniqueness_limite _ _ _ _ D Dp). subst r.
  assert (A : rel box_s s (fval s)) by (apply rel_box; [exact Fs|simpl; lra]).
  assert (B : rel box_t t (fval t)) by (apply rel_box; [exact Ft|simpl; lra]).
  assert (K := jmdfwg06_rho_p_rel sdiv sdiv (pair_of _ (or_introl eq_refl)) _ _ _ _ _ _ _ _ _ A B X). rewrite E in K.
  exact (above_ok _ _ _ 4 4 ltac:(lia) K ck_jf_slope).
Qed.

Lemma teos_slope s t v r : finite64 s -> finite64 t -> fval s <= 42 -> -3 <= fval t <= 40 -> 0 <= v <= 10000 ->
  diff_p teos_v (fval s) (fval t) v r -> r <= dec (-8) (-10).
Proof.
  intros Fs Ft Hs Ht V D. destruct (in_wide v V) as (x & X).
  destruct teos_all as (h & h0 & _ & _ & hp & hd).
  destruct (hd sdiv (or_introl eq_refl) (fval s) (fval t) v) as (_ & _ & E & _).
  assert (Dp : diff_p teos_v (fval s) (fval t) v (h 0 0 1 (fval s) (fval t) v)%nat).
  { unfold diff_p. apply (lim_ext (fun p' => h 0 0 0 (fval s) (fval t) p')%nat); [intro; apply h0|]. apply hp. }
  assert (R : r = h 0%nat 0%nat 1%nat (fval s) (fval t) v) by exact (uniqueness_limite _ _ _ _ D Dp). subst r.
  destruct (max0 s Fs) as [Fm Em]. set (s' := npmaximum s (lit 0 0)) in *.
  assert (M : 0 <= Rmax (fval s) 0 <= 42) by (split; [apply Rmax_r|apply Rmax_lub; lra]).
  assert (A : exists a, In a pieces_s /\ rel (boxof a) s' (Rmax (fval s) 0)).
  { rewrite <- Em in M |- *. destruct (Rle_dec (fval s') 21).
    - exists (0, 21)%Z. split; [now left|]. apply rel_box; [exact Fm|simpl; lra].
    - exists (21, 42)%Z. split; [right; now left|]. apply rel_box; [exact Fm|simpl; lra]. }
  assert (B : exists b, In b pieces_t /\ rel (boxof b) t (fval t)).
  { destruct (Rle_dec (fval t) 8); [|destruct (Rle_dec (fval t) 19); [|destruct (Rle_dec (fval t) 30)]].
    - exists (-3, 8)%Z. split; [now left|]. apply rel_box; [exact Ft|simpl; lra].
    - exists (8, 19)%Z. split; [right; now left|]. apply rel_box; [exact Ft|simpl; lra].
    - exists (19, 30)%Z. split; [right; right; now left|]. apply rel_box; [exact Ft|simpl; lra].
    - exists (30, 40)%Z. split; [right; right; right; now left|]. apply rel_box; [exact Ft|simpl; lra]. }
  destruct A as (a & Ia & A). destruct B as (b & Ib & B).
  assert (K := specvol_p_rel _ _ _ _ _ _ _ _ _ A B X). rewrite E in K.
  assert (C := ck_v_slope). rewrite forallb_forall in C. specialize (C a Ia). cbv beta in C.
  rewrite forallb_forall in C. specialize (C b Ib). cbv beta in C.
  exact (below_ok _ _ _ (-8) 10 ltac:(lia) K C).
Qed.

Lemma steep (f f' : R -> R) a b k : a < b -> (forall x, a <= x <= b -> derivable_pt_lim f x (f' x)) ->
  (forall x, a <= x <= b -> k <= f' x) -> k * (b - a) <= f b - f a.
Proof.
  intros L D H. destruct (MVT_cor2 f f' a b L D) as (c & E & C). rewrite E.
  apply Rmult_le_compat_r; [lra|]. apply H. lra.
Qed.

Lemma ordered y y' r r' b : within y r b -> within y' r' b -> 2 * b < r' - r -> fval y < fval y'.
Proof.
  intros [F E] [F' E'] G. apply Rabs_le_inv in E. apply Rabs_le_inv in E'. lra.
Qed.

Lemma dec_12 : dec 12 (-4) = 12 / 10000. Proof. exact (dec_neg 12 4 ltac:(lia)). Qed.
Lemma dec_4 : dec 4 (-4) = 4 / 10000. Proof. exact (dec_neg 4 4 ltac:(lia)). Qed.
Lemma dec_8 : dec (-8) (-10) = - 8 / 10000000000. Proof. exact (dec_neg (-8) 10 ltac:(lia)). Qed.
Lemma dec_85 : dec 85 (-14) = 85 / 100000000000000. Proof. exact (dec_neg 85 14 ltac:(lia)). Qed.
Lemma dec_29 : dec 29 (-13) = 29 / 10000000000000. Proof. exact (dec_neg 29 13 ltac:(lia)). Qed.
Lemma dec_57 : dec 57 (-19) = 57 / 10000000000000000000. Proof. exact (dec_neg 57 19 ltac:(lia)). Qed.
Lemma dec_res : dec 2 (-8) = 2 / 100000000. Proof. exact (dec_neg 2 8 ltac:(lia)). Qed.


Lemma jm_grows s t p p' : finite64 s -> finite64 t -> ocean (fval s) (fval t) p -> ocean (fval s) (fval t) p' -> p < p' ->
  dec 12 (-4) * (p' - p) <= jm_rho (fval s) (fval t) p' - jm_rho (fval s) (fval t) p.
Proof.
  intros Fs Ft (Hs & Ht & Hp) (_ & _ & Hp') L.
  assert (O : forall v, p <= v <= p' -> ocean (fval s) (fval t) v) by (intros v V; repeat split; lra).
  apply (steep (fun v => jm_rho (fval s) (fval t) v) (fun v => val (jmd95_rho_p sdiv (fval s) (fval t) v))); [exact L| |];
    intros v V; destruct (jm_all sdiv (or_introl eq_refl) _ _ _ (jm_ocean_dom _ _ _ (O v V))) as (_ & (rp & -> & D) & _);
    cbn [val]; [exact D|]. apply (jm_slope s t v); try assumption; lra.
Qed.

Lemma jf_grows s t p p' : finite64 s -> finite64 t -> ocean (fval s) (fval t) p -> ocean (fval s) (fval t) p' -> p < p' ->
  dec 4 (-4) * (p' - p) <= jf_rho (fval s) (fval t) p' - jf_rho (fval s) (fval t) p.
Proof.
  intros Fs Ft (Hs & Ht & Hp) (_ & _ & Hp') L.
  assert (O : forall v, p <= v <= p' -> ocean (fval s) (fval t) v) by (intros v V; repeat split; lra).
  apply (steep (fun v => jf_rho (fval s) (fval t) v) (fun v => val (jmdfwg06_rho_p sdiv (fval s) (fval t) v))); [exact L| |];
    intros v V; destruct (jf_all sdiv (or_introl eq_refl) _ _ _ (jf_ocean_dom _ _ _ (O v V))) as (_ & (rp & -> & D) & _);
    cbn [val]; [exact D|]. apply (jf_slope s t v); try assumption; lra.
Qed.

Lemma teos_shrinks s t p p' : finite64 s -> finite64 t -> fval s <= 42 -> -3 <= fval t <= 40 ->
  0 <= p <= 10000 -> 0 <= p' <= 10000 -> p < p' ->
  - dec (-8) (-10) * (p' - p) <= teos_v (fval s) (fval t) p - teos_v (fval s) (fval t) p'.
Proof.
  intros Fs Ft Hs Ht Hp Hp' L.
  destruct teos_all as (h & h0 & _ & _ & hp & _).
  assert (Dp : forall v, diff_p teos_v (fval s) (fval t) v (h 0 0 1 (fval s) (fval t) v)%nat).
  { intros v. unfold diff_p. apply (lim_ext (fun p' => h 0 0 0 (fval s) (fval t) p')%nat); [intro; apply h0|]. apply hp. }
  assert (S : - dec (-8) (-10) * (p' - p) <= - teos_v (fval s) (fval t) p' - - teos_v (fval s) (fval t) p).
  { apply (steep (fun v => - teos_v (fval s) (fval t) v) (fun v => - h 0 0 1 (fval s) (fval t) v)%nat); [exact L| |].
    - intros v V. apply (derivable_pt_lim_opp (fun v => teos_v (fval s) (fval t) v)). apply Dp.
    - intros v V. apply Ropp_le_contravar. apply (teos_slope s t v); try assumption; try lra. apply Dp. }
  lra.
Qed.

Lemma jm_resolves : forall dv : f64 -> f64 -> res f64, dv = sdiv \/ dv = adiv -> forall s t p p',
  finite64 s -> finite64 t -> finite64 p -> finite64 p' ->
  ocean (fval s) (fval t) (fval p) -> ocean (fval s) (fval t) (fval p') ->
  fval p + dec 2 (-8) <= fval p' ->
  exists y y', jmd95_rho dv s t p = Ok y /\ jmd95_rho dv s t p' = Ok y' /\ fval y < fval y'.
Proof.
  intros dv Hdv s t p p' Fs Ft Fp Fp' H H' L.
  destruct (jm_float dv Hdv s t p Fs Ft Fp H) as ((y & E & W) & _).
  destruct (jm_float dv Hdv s t p' Fs Ft Fp' H') as ((y' & E' & W') & _).
  exists y, y'. split; [exact E|]. split; [exact E'|]. apply (ordered _ _ _ _ _ W W').
  rewrite dec_res in L. rewrite dec_85.
  assert (G := jm_grows s t (fval p) (fval p') Fs Ft H H' ltac:(lra)). rewrite dec_12 in G. lra.
Qed.

Lemma jf_resolves : forall dv : f64 -> f64 -> res f64, dv = sdiv \/ dv = adiv -> forall s t p p',
  finite64 s -> finite64 t -> finite64 p -> finite64 p' ->
  ocean (fval s) (fval t) (fval p) -> ocean (fval s) (fval t) (fval p') ->
  fval p + dec 2 (-8) <= fval p' ->
  exists y y', jmdfwg06_rho dv s t p = Ok y /\ jmdfwg06_rho dv s t p' = Ok y' /\ fval y < fval y'.
Proof.
  intros dv Hdv s t p p' Fs Ft Fp Fp' H H' L.
  destruct (jf_float dv Hdv s t p Fs Ft Fp H) as ((y & E & W) & _).
  destruct (jf_float dv Hdv s t p' Fs Ft Fp' H') as ((y' & E' & W') & _).
  exists y, y'. split; [exact E|]. split; [exact E'|]. apply (ordered _ _ _ _ _ W W').
  rewrite dec_res in L. rewrite dec_29.
  assert (G := jf_grows s t (fval p) (fval p') Fs Ft H H' ltac:(lra)). rewrite dec_4 in G. lra.
Qed.

Lemma teos_resolves : forall s t p p',
  finite64 s -> finite64 t -> finite64 p -> finite64 p' ->
  fval s <= 42 -> -3 <= fval t <= 40 -> 0 <= fval p <= 10000 -> 0 <= fval p' <= 10000 ->
  fval p + dec 2 (-8) <= fval p' ->
  exists y y', gsw_specvol s t p = Ok y /\ gsw_specvol s t p' = Ok y' /\ fval y' < fval y.
Proof.
  intros s t p p' Fs Ft Fp Fp' Hs Ht Hp Hp' L.
  destruct (teos_float sdiv (or_introl eq_refl) s t p Fs Ft Fp Hs Ht Hp) as ((y & E & W) & _).
  destruct (teos_float sdiv (or_introl eq_refl) s t p' Fs Ft Fp' Hs Ht Hp') as ((y' & E' & W') & _).
  exists y, y'. split; [exact E|]. split; [exact E'|]. apply (ordered _ _ _ _ _ W' W).
  rewrite dec_res in L. rewrite dec_57.
  assert (G := teos_shrinks s t (fval p) (fval p') Fs Ft Hs Ht Hp Hp' ltac:(lra)). rewrite dec_8 in G. lra.
Qed.
