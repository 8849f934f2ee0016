(** * Neutral trajectories in binary64; the equations of state of the code; accuracy *)
From Coq Require Import ZArith Bool String Reals Lra Lia List SpecFloat.
From Flocq Require Import Core.Raux.
From Verif Require Import Num XR SF Res Arr ArrLemmas XRlemmas M_fzero S_fzero S_fzero64 M_ppinterp M_eos_base M_jmd95 M_jmdfwg06 M_gsw
  S_eos S_float S_interp S_domain S_named S_traj M_traj M_vertsolve S_vertsolve S_vert64 P_float P_fl P_fzero64 P_holds P_ppinterp P_traj P_vertsolve P_domain
  P_linear64 P_pchip64d P_eosfloat4 P_eosx P_named P_vert64 P_surf64.
Import ListNotations.
Local Open Scope R_scope.

(** ** Different binary64 numbers are apart *)
Lemma grid_of (x : f64) : finite64 x -> powerRZ 2 (-901) <= fval x -> exists n : Z, fval x = IZR n * powerRZ 2 (-960).
Proof.
  intros F H. pose proof (pow2_pos (-901)) as P. destruct x as [s| | |s m ex]; cbn [fval] in *; try lra.
  destruct s. { assert (0 <= IZR (Zpos m) * powerRZ 2 ex) by (apply Rmult_le_pos; [apply IZR_le; lia|left; apply pow2_pos]). lra. }
  destruct F as (F1 & F2 & _).
  assert (E : (-954 <= ex)%Z).
  { destruct (Z_le_gt_dec (-954) ex) as [G|G]; [exact G|exfalso].
    assert (IZR (Zpos m) * powerRZ 2 ex < powerRZ 2 53 * powerRZ 2 (-954)).
    { apply Rlt_le_trans with (powerRZ 2 53 * powerRZ 2 ex).
      - apply Rmult_lt_compat_r; [apply pow2_pos|]. rewrite <- (bpow_powerRZ Zaux.radix2). rewrite <- IZR_Zpower by lia. apply IZR_lt. exact F1.
      - apply Rmult_le_compat_l; [left; apply pow2_pos|apply pow2_le; lia]. }
    rewrite pow2_mul in H0. replace (53 + -954)%Z with (-901)%Z in H0 by lia. lra. }
  exists (Zpos m * 2 ^ (ex + 960))%Z. rewrite mult_IZR. rewrite (IZR_Zpower Zaux.radix2) by lia. rewrite bpow_powerRZ.
  cbn [Zaux.radix_val Zaux.radix2]. change (IZR 2) with 2. rewrite Rmult_assoc, pow2_mul. replace (ex + 960 + -960)%Z with ex by lia. reflexivity.
Qed.
Lemma grid_apart m n a b : a = IZR m * powerRZ 2 (-960) -> b = IZR n * powerRZ 2 (-960) -> a < b -> powerRZ 2 (-960) <= b - a.
Proof.
  intros -> -> H. pose proof (pow2_pos (-960)) as P. rewrite <- Rmult_minus_distr_r.
  assert (m < n)%Z by (apply lt_IZR; apply Rmult_lt_reg_r with (1 := P); exact H).
  assert (1 <= IZR n - IZR m) by (rewrite <- minus_IZR; apply IZR_le; lia).
  assert (1 * powerRZ 2 (-960) <= (IZR n - IZR m) * powerRZ 2 (-960)) by (apply Rmult_le_compat_r; lra). lra.
Qed.
Lemma float_apart (x y : f64) : finite64 x -> finite64 y -> powerRZ 2 (-900) <= Rmax (fval x) (fval y) -> fval x <= fval y ->
  apart (fval x) (fval y).
Proof.
  intros Fx Fy H [L|E]; [|left; exact E]. right. rewrite Rmax_right in H by lra.
  assert (E : powerRZ 2 (-900) = 2 * powerRZ 2 (-901)) by (change (-900)%Z with (1 + -901)%Z; rewrite <- pow2_mul; simpl (powerRZ 2 1); ring).
  pose proof (pow2_pos (-901)) as P.
  destruct (Rle_dec (powerRZ 2 (-901)) (fval x)) as [G|G].
  - destruct (grid_of x Fx G) as [m Em]. destruct (grid_of y Fy ltac:(lra)) as [n En].
    eapply Rle_trans; [|exact (grid_apart m n _ _ Em En L)]. apply pow2_le. lia.
  - apply Rle_trans with (powerRZ 2 (-901)); [apply pow2_le; lia|]. lra.
Qed.

Lemma starts_guess (p : f64) c c' : holds_column c c' -> starts_below c' -> finite64 p -> guess_apart (fval p) c'.
Proof.
  intros Hh Hst Fp. destruct c as [[S T] P], c' as [[S' T'] P']. cbn [guess_apart]. intros k K ss ts ps HC. cbv zeta.
  assert (HB := cast_blk _ _ _ _ _ _ _ _ HC). destruct Hh as (HS & HT & HP).
  specialize (Hst _ _ _ _ _ HC).
  assert (Lv : forall i, (k <= i < K)%nat -> exists x : f64, finite64 x /\ fval x = ps i).
  { intros i Hi. pose proof (blk_X _ _ _ _ _ _ HB i Hi) as E. destruct (holds_get P P' i _ HP E) as (x & _ & [Fx Vx]). exists x. auto. }
  pose proof (blk_kK _ _ _ _ _ _ HB) as HkK.
  assert (Hle : ps k <= ps (K - 1)%nat) by (apply (blk_mono_le _ _ _ _ _ _ HB); lia).
  destruct (Lv k ltac:(lia)) as (A & FA & VA). destruct (Lv (K - 1)%nat ltac:(lia)) as (B & FB & VB).
  rewrite <- VA, <- VB in *. pose proof (Rmax_l (fval p) (fval A)). pose proof (Rmax_r (fval p) (fval A)).
  destruct (Rle_dec (fval p) (fval A)) as [L|L].
  - rewrite (Rmax_right (fval p)) by lra. rewrite Rmin_left by lra. split; [left; reflexivity|].
    apply float_apart; try assumption. rewrite Rmax_right by lra. lra.
  - rewrite (Rmax_left (fval p)) by lra. destruct (Rle_dec (fval p) (fval B)) as [M|M].
    + rewrite Rmin_left by lra. split; apply float_apart; try assumption; try lra; rewrite Rmax_right by lra; lra.
    + rewrite Rmin_right by lra. split; [|left; reflexivity]. apply float_apart; try assumption. rewrite Rmax_right by lra. lra.
Qed.

(** ** Trajectories *)
Lemma surface_cases rel H tol e d c x : surface_point64 rel H tol e d c x ->
  x = (nan, nan, nan) \/ exists vs vt, sampled rel e c x vs vt.
Proof.
  intros [[_ Hx]|(gS & gT & lo & hi & Hp & [[Hx _]|(s & t & p & r & Hx & Fp & Ip & Ws & Wt & _)])]; [left; exact Hx|left; exact Hx|right].
  exists (gS (fval p)), (gT (fval p)), gS, gT, lo, hi, s, t, p. auto 10.
Qed.

Section Traj.
  Variables (eos : f64 -> f64 -> f64 -> res f64) (rho : R -> R -> R -> R) (s0 pm e ep d B d' : R).
  Hypothesis Hpm : pm <= 10000.
  Hypothesis Heos : eos64_on (sea s0 pm) eos rho e e ep d B.
  Hypothesis Hep : dec 3 (-12) <= ep.
  Hypothesis Hd0 : 0 <= d.
  Hypothesis He0 : 0 <= e.
  Hypothesis Hd1 : d <= / 1000.
  Hypothesis HB : 0 <= B <= 10000.
  Hypothesis Hd' : d + 3 * (u64 * (B + d) + eta64) <= d'.
  Hypothesis Hc : continuous3 (sea s0 pm) rho.
  Variable ppc_fn : list f64 -> list f64 -> res (list (list f64)).
  Variable rel : nat -> (nat -> R) -> (nat -> R) -> (R -> R) -> Prop.
  Hypothesis Hs0 : 0 <= s0.
  Hypothesis Hppc : interpolator64 ppc_fn rel (powerRZ 2 (-30)) 10000 42 e.
  Variable tol : f64.
  Hypothesis Ftol : finite64 tol.
  Hypothesis Htol : tolerance_ok (fval tol).

  Lemma sampled_in c x vs vt : cast_in (sea s0 pm) c -> sampled rel e c x vs vt ->
    exists s t p, x = (s, t, p) /\ finite64 p /\ dS (sea s0 pm) vs /\ dT (sea s0 pm) vt /\ dP (sea s0 pm) (fval p)
      /\ S_float.within s vs e /\ S_float.within t vt e.
  Proof.
    intros Hin (gS & gT & lo & hi & s & t & p & Hp & -> & Fp & Ip & -> & -> & Ws & Wt).
    destruct (profile_in (sea s0 pm) rel c gS gT lo hi Hin Hp _ Ip) as (D1 & D2 & D3). exists s, t, p. auto 10.
  Qed.

  (** the columns of a trajectory, and the fuel *)
  Definition good_column fuel (c : column) : Prop :=
    any_cast c /\ cast_in (sea s0 pm) c /\ column_spaced c /\ starts_below c /\ enough_fuel64 fuel (fval tol) c.

  Lemma loop_64 fuel p0 c x vs vt casts casts' : cast_in (sea s0 pm) c -> sampled rel e c x vs vt ->
    Forall2 holds_column casts casts' -> Forall (good_column fuel) casts' ->
    exists l, traj_loop eos ppc_fn fuel tol p0 (Some x) casts = Ok l /\ (length l <= length casts')%nat
      /\ neutral_chain rel rho (fval tol) e (2 * d') c x casts' (l ++ repeat (nan, nan, nan) (length casts' - length l)).
  Proof.
    intros Hin Hx Hh. revert c x vs vt Hin Hx. induction Hh as [|c1 c' casts casts' Hh1 Hh IH]; intros c x vs vt Hin Hx Hg.
    - exists []. split; [reflexivity|]. split; [auto|]. constructor.
    - inversion Hg as [|? ? (G1 & G2 & G3 & G4 & G5) Hg2]; subst.
      destruct (sampled_in c x vs vt Hin Hx) as (s & t & p & -> & Fp & Ds & Dt & Dp & Ws & Wt).
      pose proof (link_64 eos rho s0 pm e ep d B d' Hpm Heos Hep Hd0 Hd1 HB Hd' Hc ppc_fn rel Hs0 Hppc tol Ftol Htol s t p vs vt c1 c'
        Ws Ds Wt Dt Fp Dp Hh1 G1 G2 G3 (starts_guess p c1 c' Hh1 G4 Fp)) as HL.
      destruct c1 as [[Sc Tc] Pc]. destruct HL as (r & Er & Hr). specialize (Er fuel G5).
      cbn [traj_loop]. unfold ntp_bottle_to_cast_pub in Er. destruct (valid_range_1_two Sc Pc) as [[k K]|]; [|discriminate Er]. cbn [bind] in *.
      rewrite Er. cbn [bind]. destruct (surface_cases _ _ _ _ _ _ _ Hr) as [Hn|(vs' & vt' & Hs')].
      + subst r. cbn [snd]. change (isnan (nan : f64)) with true. exists [(nan, nan, nan)]. split; [reflexivity|].
        split; [simpl; lia|]. cbn [app length]. rewrite Nat.sub_succ, Nat.sub_0_r. eapply chain_link; [exact Hx|exact Hr|]. apply chain_lost.
      + destruct (sampled_in c' r vs' vt' G2 Hs') as (s' & t' & p' & -> & Fp' & _). cbn [snd].
        change (isnan p') with (sf_isnan p'). rewrite (finite_isnan p' Fp').
        destruct (IH c' (s', t', p') vs' vt' G2 Hs' Hg2) as (l & El & Hl & Hch). rewrite El. cbn [bind]. exists ((s', t', p') :: l).
        split; [reflexivity|]. split; [simpl; lia|]. cbn [app length]. rewrite Nat.sub_succ.
        eapply chain_link; [exact Hx|exact Hr|exact Hch].
  Qed.

  Lemma trajectory_64 fuel (p0 : f64) c1 c' casts casts' k K ss ts ps : finite64 p0 ->
    holds_column c1 c' -> cast (fst (fst c')) (snd (fst c')) (snd c') k K ss ts ps -> (k + 1 < K)%nat ->
    ps k <= fval p0 <= ps (K - 1)%nat -> cast_in (sea s0 pm) c' -> column_spaced c' ->
    Forall2 holds_column casts casts' -> Forall (good_column fuel) casts' ->
    exists x l, neutral_trajectory eos ppc_fn fuel (c1 :: casts) p0 tol = Ok (x :: l) /\ snd x = p0
      /\ (exists vs vt, sampled rel e c' x vs vt)
      /\ neutral_chain rel rho (fval tol) e (2 * d') c' x casts' l.
  Proof.
    intros Fp Hh1 HC H2 Ip Hin Hsp Hh Hg. destruct c1 as [[Sc Tc] Pc], c' as [[S' T'] P']. cbn [fst snd] in HC.
    destruct (cast_interpolants64 ppc_fn rel s0 pm e Hpm Hs0 Hppc Sc Tc Pc S' T' P' k K ss ts ps (proj1 Hh1) (proj1 (proj2 Hh1)) (proj2 (proj2 Hh1)) HC H2 Hin Hsp)
      as (Sppc & Tppc & gS & gT & A & B' & E1 & E2 & Hpr & G0 & G1 & FA & FB & VA & VB & Hv).
    rewrite <- VA, <- VB in Ip. destruct (Hv p0 Fp Ip) as (s & t & Ep & Ws & Wt).
    assert (Hx : sampled rel e (S', T', P') (s, t, p0) (gS (fval p0)) (gT (fval p0))).
    { exists gS, gT, (fval A), (fval B'), s, t, p0. auto 10. }
    destruct (loop_64 fuel p0 (S', T', P') (s, t, p0) _ _ casts casts' Hin Hx Hh Hg) as (l & El & Hl & Hch).
    assert (HR := cast_range64 Sc Pc S' T' P' k K ss ts ps (proj1 Hh1) (proj2 (proj2 Hh1)) HC).
    assert (Hlen : length casts = length casts') by (clear - Hh; induction Hh; simpl; congruence).
    exists (s, t, p0), (l ++ repeat (nan, nan, nan) (length casts' - length l)). split; [|split; [reflexivity|split; [eauto|exact Hch]]].
    unfold neutral_trajectory. cbn [traj_loop]. rewrite HR. cbn [bind]. rewrite E1, E2. cbn [bind]. rewrite Ep. cbn [bind snd].
    change (isnan p0) with (sf_isnan p0). rewrite (finite_isnan p0 Fp). rewrite El. cbn [bind length].
    rewrite Nat.sub_succ, Hlen. reflexivity.
  Qed.
End Traj.

(** ** The equations of state of the code *)
Lemma cont_ext (f g : R -> R) x : (forall y, f y = g y) -> continuity_pt f x -> continuity_pt g x.
Proof.
  intros E H ep He. destruct (H ep He) as (a & Ha & K). exists a. split; [exact Ha|]. intros y Hy. rewrite <- !E. exact (K y Hy).
Qed.
Lemma named_cont name v s0 : named_eos name v -> 0 <= s0 -> continuous3 (sea s0 10000) v.
Proof.
  intros Hn H0 a b c x Ha Hb Hcx Da Db Dc.
  destruct (named_ok name v None None 1 Hn) as (f & _ & Hf); [left; auto|].
  apply (cont_ext (fun x => at_depth 1 v (a x) (b x) (c x))); [intros y; unfold at_depth; rewrite Rmult_1_r; reflexivity|].
  cbn [sea box dS dT dP] in *. unfold upto in *.
  apply (g_cont _ _ _ Hf a b c); try assumption; cbn [seas dS dT dP]; unfold upto; lra.
Qed.

Lemma eta_1e30 : eta64 <= / 1000000000000000000000000000000.
Proof. eapply Rle_trans; [unfold eta64; apply (pow2_le _ (-200)); lia|]. simpl. lra. Qed.

Lemma base64_ok eos rho s0 e d' B : base64 eos rho s0 e d' B -> exists d,
  eos64_on (sea s0 10000) eos rho e e (dec 1 (-11)) d B /\ 0 <= d /\ d <= / 1000 /\ 0 <= B <= 10000
  /\ d + 3 * (u64 * (B + d) + eta64) <= d' /\ 2 * d + 4 * (u64 * (B + d) + eta64) <= B / 2 /\ 0 <= s0 /\ continuous3 (sea s0 10000) rho.
Proof.
  pose proof eta_1e30 as Ee.
  intros [dv e0 d0 Hdv Hm|dv e0 d0 Hdv Hm|e0 d0 Hm]; inversion Hm; subst; clear Hm.
  - exists (dec 254 (-14)). split; [exact (jm_eos64 13 254 dv Hdv ckd_jm13)|]. repeat (split; [unfold dec, u64; simpl; lra|]).
    apply (named_cont "jmd95"%string); [constructor|lra].
  - exists (dec 1704 (-14)). split; [exact (jm_eos64 12 1704 dv Hdv ckd_jm12)|]. repeat (split; [unfold dec, u64; simpl; lra|]).
    apply (named_cont "jmd95"%string); [constructor|lra].
  - exists (dec 815 (-14)). split; [exact (jf_eos64 13 815 dv Hdv ckd_jf13)|]. repeat (split; [unfold dec, u64; simpl; lra|]).
    apply (named_cont "jmdfwg06"%string); [constructor|lra].
  - exists (dec 5360 (-14)). split; [exact (jf_eos64 12 5360 dv Hdv ckd_jf12)|]. repeat (split; [unfold dec, u64; simpl; lra|]).
    apply (named_cont "jmdfwg06"%string); [constructor|lra].
  - exists (dec 191 (-19)). split; [exact (teos_eos64 13 191 ckd_v13)|]. repeat (split; [unfold dec, u64; simpl; lra|]).
    apply (named_cont "gsw"%string); [constructor|lra].
  - exists (dec 1384 (-19)). split; [exact (teos_eos64 12 1384 ckd_v12)|]. repeat (split; [unfold dec, u64; simpl; lra|]).
    apply (named_cont "gsw"%string); [constructor|lra].
Qed.

(** the pressure at a depth *)
Lemma depth_within (z fz : f64) vz zp : S_float.within z vz (dec 3 (-12)) -> S_float.within fz zp (dec 4 (-16) * zp) -> / 2 <= zp <= 3 / 2 ->
  0 <= vz <= 10000 -> vz * zp <= 10000 -> S_float.within (mul z fz : f64) (vz * zp) (dec 1 (-11)).
Proof.
  intros [Fz Ez] [Ff Ef] Hzp Hv Hvz. pose proof eta_1e30 as Ee.
  assert (U : u64 = / 9007199254740992) by reflexivity.
  assert (D1 : dec 3 (-12) = 3 / 1000000000000) by (unfold dec; simpl; lra).
  assert (D2 : dec 4 (-16) = 4 / 10000000000000000) by (unfold dec; simpl; lra).
  assert (D3 : dec 1 (-11) = 1 / 100000000000) by (unfold dec; simpl; lra).
  rewrite D1 in Ez. rewrite D2 in Ef. rewrite D3.
  set (a := fval z - vz) in *. set (b := fval fz - zp) in *.
  assert (E : fval z * fval fz = vz * zp + (a * zp + vz * b + a * b)) by (unfold a, b; ring).
  assert (A1 : Rabs (a * zp) <= 3 / 1000000000000 * (3 / 2)).
  { rewrite Rabs_mult, (Rabs_pos_eq zp) by lra. apply Rmult_le_compat; try lra; try apply Rabs_pos. }
  assert (A2 : Rabs (vz * b) <= 4 / 10000000000000000 * 10000).
  { rewrite Rabs_mult, (Rabs_pos_eq vz) by lra.
    apply Rle_trans with (vz * (4 / 10000000000000000 * zp)); [apply Rmult_le_compat_l; lra|].
    replace (vz * (4 / 10000000000000000 * zp)) with (4 / 10000000000000000 * (vz * zp)) by ring. apply Rmult_le_compat_l; lra. }
  assert (A3 : Rabs (a * b) <= 3 / 1000000000000 * / 1000000000000).
  { rewrite Rabs_mult. apply Rmult_le_compat; try lra; try apply Rabs_pos. }
  clearbody a b. set (w := fval z * fval fz) in *.
  apply Rabs_le_inv in A1, A2, A3.
  assert (V0 : 0 <= vz * zp) by (apply Rmult_le_pos; lra).
  assert (Q : Rabs w <= 1000000) by (apply Rabs_le; lra).
  destruct (sf_mul_near z fz Fz Ff (small_big _ Q)) as [Fm Em]. change (sf_mul z fz) with (mul z fz) in *.
  split; [exact Fm|]. fold w in Em. apply abs_le_of in Em.
  assert (W2 : u64 * Rabs w <= u64 * 10001) by (apply Rmult_le_compat_l; [rewrite U; lra|apply Rabs_le; lra]).
  apply Rabs_le. rewrite U in *. lra.
Qed.

Lemma named64_ok eos rho s0 pm e d' B : named64 eos rho s0 pm e d' B -> exists d,
  pm <= 10000 /\ eos64_on (sea s0 pm) eos rho e e (dec 3 (-12)) d B /\ 0 <= d /\ d <= / 1000 /\ 0 <= B <= 10000
  /\ d + 3 * (u64 * (B + d) + eta64) <= d' /\ 2 * d + 4 * (u64 * (B + d) + eta64) <= B / 2 /\ 0 <= s0 /\ continuous3 (sea s0 pm) rho.
Proof.
  intros [eos0 rho0 s1 e1 d1 B1 Hb|eos0 rho0 s1 e1 d1 B1 fz zp pm1 Hb Hfz Hzp Hpm Hpz];
    destruct (base64_ok _ _ _ _ _ _ Hb) as (d & H1 & H2 & H3 & H4 & H5 & H6 & H7 & H8); exists d.
  - split; [lra|]. split; [|auto 10]. intros s t p vs vt vp Ds Dt Dp Ws Wt Wp. apply (H1 s t p vs vt vp Ds Dt Dp Ws Wt).
    eapply within_mono; [|exact Wp]. unfold dec. simpl. lra.
  - assert (R : forall y, dP (sea s1 pm1) y -> 0 <= y <= 10000 /\ 0 <= y * zp <= 10000).
    { intros y Hy. cbn [sea box dP] in Hy. unfold upto in Hy. split; [lra|]. split; [apply Rmult_le_pos; lra|].
      apply Rle_trans with (pm1 * zp); [apply Rmult_le_compat_r; lra|exact Hpz]. }
    split; [lra|]. split; [|split; [exact H2|split; [exact H3|split; [exact H4|split; [exact H5|split; [exact H6|split; [exact H7|]]]]]]].
    + intros s t p vs vt vp Ds Dt Dp Ws Wt Wp. destruct (R vp Dp) as [R1 R2].
      apply (H1 s t (mul p fz) vs vt (vp * zp) Ds Dt R2 Ws Wt). apply depth_within; try assumption. lra.
    + intros a b c x Ha Hb' Hc Da Db Dc. destruct (R _ Dc) as [R1 R2]. unfold at_depth.
      apply (H8 a b (fun y => c y * zp) x Ha Hb'); [|exact Da|exact Db|exact R2].
      apply (continuity_pt_mult c (fun _ => zp)); [exact Hc|]. apply continuity_pt_const. intros y z. reflexivity.
Qed.

Lemma linear_sea junk : interpolator64 (linear_coeffs_1 junk) linear_fun (powerRZ 2 (-30)) 10000 42 (dec 1 (-13)).
Proof.
  assert (HM : powerRZ 2 (-90) <= 42 <= powerRZ 2 90).
  { split; [apply Rle_trans with (powerRZ 2 5)|apply Rle_trans with (powerRZ 2 6)]; try (apply pow2_le; lia); simpl; lra. }
  intros X Y X' Y' xs ys HX HY HB Hl Hsp Hy.
  assert (Hsp' : spaced (length X') xs (powerRZ 2 (-900)) (powerRZ 2 900)).
  { intros i Hi. destruct (Hsp i Hi) as [H1 H2]. split; [eapply Rle_trans; [|exact H1]; apply pow2_le; lia|].
    eapply Rle_trans; [exact H2|]. apply Rle_trans with (powerRZ 2 20); [simpl; lra|apply pow2_le; lia]. }
  destruct (linear_interpolator64 junk 42 HM X Y X' Y' xs ys HX HY HB Hl Hsp' Hy) as (C & g & E & H1 & H2 & H3 & H4).
  exists C, g. split; [exact E|]. split; [exact H1|]. split; [exact H2|]. split; [exact H3|].
  intros x Fx Ix. destruct (H4 x Fx Ix) as (y & Ey & Wy). exists y. split; [exact Ey|]. eapply within_mono; [|exact Wy].
  unfold dec. simpl. lra.
Qed.

Lemma pchip_sea junk : interpolator64 (pchip_coeffs_1_nonan junk) pchip_fun (powerRZ 2 (-30)) 10000 42 (dec 1 (-12)).
Proof.
  assert (HM : powerRZ 2 (-90) <= 42 <= powerRZ 2 90).
  { split; [apply Rle_trans with (powerRZ 2 5)|apply Rle_trans with (powerRZ 2 6)]; try (apply pow2_le; lia); simpl; lra. }
  intros X Y X' Y' xs ys HX HY HB Hl Hsp Hy.
  assert (Hsp' : spaced (length X') xs (powerRZ 2 (-60)) (powerRZ 2 60)).
  { intros i Hi. destruct (Hsp i Hi) as [H1 H2]. split; [eapply Rle_trans; [|exact H1]; apply pow2_le; lia|].
    eapply Rle_trans; [exact H2|]. apply Rle_trans with (powerRZ 2 20); [simpl; lra|apply pow2_le; lia]. }
  destruct (pchip_interpolator64 junk 42 HM X Y X' Y' xs ys HX HY HB Hl Hsp' Hy) as (C & g & E & H1 & H2 & H3 & H4).
  exists C, g. split; [exact E|]. split; [exact H1|]. split; [exact H2|]. split; [exact H3|].
  intros x Fx Ix. destruct (H4 x Fx Ix) as (y & Ey & Wy). exists y. split; [exact Ey|]. eapply within_mono; [|exact Wy].
  unfold dec, u64. simpl. lra.
Qed.

Lemma scheme_sea name ppc rel e junk : scheme64 name ppc rel e -> interpolator64 (ppc junk) rel (powerRZ 2 (-30)) 10000 42 e.
Proof. intros []; [apply linear_sea|apply pchip_sea]. Qed.
Lemma scheme_pos name ppc rel e : scheme64 name ppc rel e -> 0 <= e.
Proof. intros []; unfold dec; simpl; lra. Qed.

Section Named.
  Variables (interp : string) (ppc : f64 -> list f64 -> list f64 -> res (list (list f64))) (rel : nat -> (nat -> R) -> (nat -> R) -> (R -> R) -> Prop) (e : R).
  Hypothesis Hi : scheme64 interp ppc rel e.
  Variables (eos : f64 -> f64 -> f64 -> res f64) (rho : R -> R -> R -> R) (s0 pm d B : R).
  Hypothesis Hn : named64 eos rho s0 pm e d B.
  Variables (junk tol : f64).
  Hypotheses (Ftol : finite64 tol) (Htol : tolerance_ok (fval tol)).
  Let e_pos := scheme_pos _ _ _ _ Hi.

  Lemma potential_named (ref iso : f64) casts casts' : finite64 ref -> 0 <= fval ref <= pm -> finite64 iso -> Rabs (fval iso) <= B ->
    Forall2 holds_column casts casts' -> Forall any_cast casts' -> Forall (cast_in (sea s0 pm)) casts' -> Forall column_spaced casts' ->
    exists x, (forall fuel, Forall (enough_fuel64 fuel (fval tol)) casts' ->
        vertsolve (ppc junk) fuel (zero_potential eos ref iso) tol casts = Ok x)
      /\ Forall2 (surface_point64 rel (potential_of rho (fval ref) (fval iso)) (fval tol) e d) casts' x.
  Proof.
    destruct (named64_ok _ _ _ _ _ _ _ Hn) as (d0 & H0 & H1 & H2 & H3 & H4 & H5 & H5' & H6 & H7).
    exact (potential_64 eos rho s0 pm _ _ d0 B d H0 H1 (Rle_refl _) H2 H3 H4 H5 H7 _ _ H6 (scheme_sea _ _ _ _ junk Hi) tol Ftol Htol ref iso casts casts').
  Qed.
  Lemma anomaly_named (sr tr iso : f64) casts casts' : finite64 sr -> s0 <= fval sr <= 42 -> finite64 tr -> -3 <= fval tr <= 40 ->
    finite64 iso -> Rabs (fval iso) <= B ->
    Forall2 holds_column casts casts' -> Forall any_cast casts' -> Forall (cast_in (sea s0 pm)) casts' -> Forall column_spaced casts' ->
    exists x, (forall fuel, Forall (enough_fuel64 fuel (fval tol)) casts' ->
        vertsolve (ppc junk) fuel (zero_anomaly eos (sr, tr) iso) tol casts = Ok x)
      /\ Forall2 (surface_point64 rel (anomaly_of rho (fval sr) (fval tr) (fval iso)) (fval tol) e (2 * d)) casts' x.
  Proof.
    destruct (named64_ok _ _ _ _ _ _ _ Hn) as (d0 & H0 & H1 & H2 & H3 & H4 & H5 & H5' & H6 & H7).
    exact (anomaly_64 eos rho s0 pm _ _ d0 B d H0 H1 (Rle_refl _) H2 e_pos H3 H4 H5 H7 _ _ H6 (scheme_sea _ _ _ _ junk Hi) tol Ftol Htol sr tr iso casts casts').
  Qed.
  Lemma omega_named64 (s t p ϕ : f64) vs vt c c' : S_float.within s vs e -> dS (sea s0 pm) vs -> S_float.within t vt e -> dT (sea s0 pm) vt ->
    finite64 p -> dP (sea s0 pm) (fval p) -> finite64 ϕ -> fval ϕ <> 0 -> Rabs (fval ϕ) <= B / 2 ->
    holds_column c c' -> any_cast c' -> cast_in (sea s0 pm) c' -> column_spaced c' -> guess_apart (fval p) c' ->
    exists r, (forall fuel, enough_fuel64 fuel (fval tol) c' -> vertsolve_omega_1 eos (ppc junk) fuel tol (s, t, p) c ϕ = Ok r)
      /\ surface_point64 rel (potential_of rho (fval p) (rho vs vt (fval p) + fval ϕ)) (fval tol) e (2 * d) c' r.
  Proof.
    destruct (named64_ok _ _ _ _ _ _ _ Hn) as (d0 & H0 & H1 & H2 & H3 & H4 & H5 & H5' & H6 & H7).
    intros Ws Ds Wt Dt Fp Dp Fϕ Nϕ Bϕ.
    apply (omega_64 eos rho s0 pm _ _ d0 B d H0 H1 (Rle_refl _) H2 H3 H4 H5 H7 _ _ H6 (scheme_sea _ _ _ _ junk Hi) tol Ftol Htol s t p ϕ vs vt c c'); try assumption.
    lra.
  Qed.
  Lemma link_named (s t p : f64) vs vt Sc Tc Pc c' : S_float.within s vs e -> dS (sea s0 pm) vs -> S_float.within t vt e -> dT (sea s0 pm) vt ->
    finite64 p -> dP (sea s0 pm) (fval p) ->
    holds_column (Sc, Tc, Pc) c' -> any_cast c' -> cast_in (sea s0 pm) c' -> column_spaced c' -> guess_apart (fval p) c' ->
    exists r, (forall fuel, enough_fuel64 fuel (fval tol) c' ->
        ntp_bottle_to_cast_pub eos (ppc junk) fuel s t p Sc Tc Pc tol = Ok r)
      /\ surface_point64 rel (neutral_of rho vs vt (fval p)) (fval tol) e (2 * d) c' r.
  Proof.
    destruct (named64_ok _ _ _ _ _ _ _ Hn) as (d0 & H0 & H1 & H2 & H3 & H4 & H5 & H5' & H6 & H7).
    exact (link_64 eos rho s0 pm _ _ d0 B d H0 H1 (Rle_refl _) H2 H3 H4 H5 H7 _ _ H6 (scheme_sea _ _ _ _ junk Hi) tol Ftol Htol s t p vs vt (Sc, Tc, Pc) c').
  Qed.
  Lemma trajectory_named fuel (p0 : f64) c1 c' casts casts' k K ss ts ps : finite64 p0 ->
    holds_column c1 c' -> cast (fst (fst c')) (snd (fst c')) (snd c') k K ss ts ps -> (k + 1 < K)%nat ->
    ps k <= fval p0 <= ps (K - 1)%nat -> cast_in (sea s0 pm) c' -> column_spaced c' ->
    Forall2 holds_column casts casts' ->
    Forall (fun c => any_cast c /\ cast_in (sea s0 pm) c /\ column_spaced c /\ starts_below c /\ enough_fuel64 fuel (fval tol) c) casts' ->
    exists x l, neutral_trajectory eos (ppc junk) fuel (c1 :: casts) p0 tol = Ok (x :: l) /\ snd x = p0
      /\ (exists vs vt, sampled rel e c' x vs vt)
      /\ neutral_chain rel rho (fval tol) e (2 * d) c' x casts' l.
  Proof.
    destruct (named64_ok _ _ _ _ _ _ _ Hn) as (d0 & H0 & H1 & H2 & H3 & H4 & H5 & H5' & H6 & H7).
    exact (trajectory_64 eos rho s0 pm _ _ d0 B d H0 H1 (Rle_refl _) H2 H3 H4 H5 H7 _ _ H6 (scheme_sea _ _ _ _ junk Hi) tol Ftol Htol
      fuel p0 c1 c' casts casts' k K ss ts ps).
  Qed.
End Named.

(** ** Accuracy where the column is stratified *)
Lemma steep_root m h lo hi y d q : 0 < m -> steep m h lo hi -> lo <= y <= hi -> lo <= q <= hi -> h q = 0 -> Rabs (h y) <= d -> Rabs (y - q) <= d / m.
Proof.
  intros Hm Hs Hy Hq E Hd. apply Rmult_le_reg_r with m; [exact Hm|]. unfold Rdiv. rewrite Rmult_assoc, Rinv_l, Rmult_1_r by lra.
  apply Rabs_le_inv in Hd. destruct (Rle_dec y q) as [L|L].
  - rewrite Rabs_left1 by lra. destruct Hs as [H|H]; pose proof (H y q ltac:(lra) ltac:(lra) ltac:(lra)); lra.
  - rewrite Rabs_pos_eq by lra. destruct Hs as [H|H]; pose proof (H q y ltac:(lra) ltac:(lra) ltac:(lra)); lra.
Qed.
Lemma surface_accuracy rel H tol e d c x : surface_point64 rel H tol e d c x ->
  (short_cast (fst (fst c)) (snd c) /\ x = (nan, nan, nan))
  \/ exists gS gT lo hi, profile rel c gS gT lo hi /\
     let h p := H (gS p) (gT p) p in
     forall m q, 0 < m -> steep m h lo hi -> lo <= q <= hi -> h q = 0 ->
       (exists s t p, x = (s, t, p) /\ Rabs (fval p - q) <= brent_tol (fval p) tol * (1 + powerRZ 2 (-50)) + d / m)
       \/ (x = (nan, nan, nan) /\ (q - lo <= d / m \/ hi - q <= d / m)).
Proof.
  intros [Hs|(gS & gT & lo & hi & Hp & Hx)]; [left; exact Hs|right]. exists gS, gT, lo, hi. split; [exact Hp|].
  cbv zeta in *. set (h := fun p => H (gS p) (gT p) p) in *. intros m q Hm Hst Iq Eq.
  destruct Hx as [[Hx Hn]|(s & t & p & r & Hx & Fp & Ip & Ws & Wt & Ir & Hr & Dr)].
  - right. split; [exact Hx|]. destruct (Rle_dec (q - lo) (d / m)) as [L|L]; [left; exact L|right].
    destruct (Rle_dec (hi - q) (d / m)) as [L'|L']; [exact L'|exfalso].
    change (no_change_up_to d h lo hi) in Hn. destruct Hn as [N1 N2].
    assert (M : forall z, d / m < z -> d < m * z).
    { intros z Hz. apply (Rmult_lt_compat_l m) in Hz; [|exact Hm]. unfold Rdiv in Hz. rewrite (Rmult_comm d), <- Rmult_assoc, Rinv_r, Rmult_1_l in Hz by lra. exact Hz. }
    pose proof (M _ (Rnot_le_lt _ _ L)). pose proof (M _ (Rnot_le_lt _ _ L')).
    destruct Hst as [S1|S1]; pose proof (S1 lo q ltac:(lra) ltac:(lra) ltac:(lra)); pose proof (S1 q hi ltac:(lra) ltac:(lra) ltac:(lra)); [apply N1|apply N2]; lra.
  - left. exists s, t, p. split; [exact Hx|]. pose proof (steep_root m h lo hi r d q Hm Hst Ir Iq Eq Hr) as K.
    replace (fval p - q) with ((fval p - r) + (r - q)) by ring. eapply Rle_trans; [apply Rabs_triang|]. lra.
Qed.
