(** * Bottles without salinity and temperature, and large perturbations, in binary64 *)
From Coq Require Import String ZArith Bool Reals Lra Lia List SpecFloat.
From Flocq Require Import Core IEEE754.BinarySingleNaN.
From Verif Require Import Num XR SF Res Arr ArrLemmas XRlemmas M_fzero S_fzero S_fzero64 M_ppinterp M_eos_base M_jmd95 M_jmdfwg06 M_gsw
  S_eos S_float S_interp S_domain S_named S_traj M_traj M_vertsolve S_vertsolve S_vert64 P_float P_fl P_fzero64 P_holds P_ppinterp P_traj P_vertsolve P_domain
  P_linear64 P_eosfloat4 P_eosx P_named P_vert64 P_surf64 P_traj64 P_sign64 P_ntpnan64 S_omega64.
Import ListNotations.
Local Open Scope R_scope.

Lemma div_nan_r (x : f64) : div x NAN = NAN. Proof. destruct x; reflexivity. Qed.
Lemma div_nan_l (x : f64) : div NAN x = NAN. Proof. reflexivity. Qed.
Lemma adiv_nan_r (x : f64) : adiv x NAN = Ok NAN. Proof. unfold adiv. rewrite div_nan_r. reflexivity. Qed.

Lemma base_nan eos rho s0 e d B : base64 eos rho s0 e d B -> forall p : f64, eos NAN NAN p = Ok NAN.
Proof.
  intros [dv e0 d0 [-> | ->] _|dv e0 d0 [-> | ->] _|e0 d0 _] p.
  - unfold jmd95_rho. nan64. reflexivity.
  - unfold jmd95_rho. nan64. rewrite ?adiv_nan_r. cbn [bind]. nan64. reflexivity.
  - unfold jmdfwg06_rho. nan64. reflexivity.
  - unfold jmdfwg06_rho. nan64. rewrite ?adiv_nan_r. cbn [bind]. nan64. reflexivity.
  - unfold gsw_specvol. nan64. reflexivity.
Qed.
Lemma named_nan eos rho s0 pm e d B : named64 eos rho s0 pm e d B -> forall p : f64, eos NAN NAN p = Ok NAN.
Proof. intros [eos0 rho0 s1 e1 d1 B1 Hb|eos0 rho0 s1 e1 d1 B1 fz zp pm1 Hb _ _ _ _] p; exact (base_nan _ _ _ _ _ _ Hb _). Qed.

(** ** adding a moderate number never overflows *)
Lemma bpow_powerRZ n : bpow radix2 n = powerRZ 2 n.
Proof. destruct n as [|p|p]; [reflexivity| |]; cbn [bpow powerRZ]; rewrite Zpower_pos_powerRZ; reflexivity. Qed.
Lemma fval_max (x : f64) : finite64 x -> Rabs (fval x) <= bpow radix2 1024 - bpow radix2 971.
Proof.
  intros F. destruct (finite64_B x F) as (b & _ & Fb & <-). exact (abs_B2R_le_emax_minus_prec 53 1024 P_float.prec_pos b).
Qed.
Lemma no_overflow (x : f64) z : finite64 x -> Rabs z <= 10000000 -> Rabs (rnd (fval x + z)) < bpow radix2 1024.
Proof.
  intros F Hz. pose proof (fval_max x F) as Hx. pose proof (rnd_err (fval x + z)) as He. pose proof (Rabs_triang (fval x) z) as Ht.
  assert (E1 : bpow radix2 1024 = bpow radix2 918 * bpow radix2 106) by (rewrite <- bpow_plus; reflexivity).
  assert (E2 : bpow radix2 971 = bpow radix2 918 * bpow radix2 53) by (rewrite <- bpow_plus; reflexivity).
  assert (E3 : bpow radix2 106 = IZR (2 ^ 106)) by reflexivity. assert (E4 : bpow radix2 53 = IZR (2 ^ 53)) by reflexivity.
  assert (P : bpow radix2 100 <= bpow radix2 918) by (apply bpow_le; lia).
  assert (E5 : bpow radix2 100 = IZR (2 ^ 100)) by reflexivity.
  assert (Ee := eta_1e30). pose proof (Rabs_triang_inv (rnd (fval x + z)) (fval x + z)) as Hi.
  set (Q := bpow radix2 918) in *. rewrite E1, E2 in Hx. rewrite E1. rewrite E3 in *. rewrite E4 in *. rewrite E5 in P. clearbody Q. clear E1 E2 E3 E4 E5.
  change (2 ^ 106)%Z with 81129638414606681695789005144064%Z in *. change (2 ^ 53)%Z with 9007199254740992%Z in *. change (2 ^ 100)%Z with 1267650600228229401496703205376%Z in *.
  assert (u64 * Rabs (fval x + z) <= u64 * (Q * 81129638414606681695789005144064 - Q * 9007199254740992 + 10000000)) by (apply Rmult_le_compat_l; [unfold u64; lra|lra]).
  assert (U : u64 = / 9007199254740992) by reflexivity. rewrite U in *. lra.
Qed.
Lemma rnd_above a v : 0 <= a <= 1000000 -> a <= v -> a * (999 / 1000) - / 1000000000 <= rnd v.
Proof.
  intros Ha Hv. apply Rle_trans with (rnd a); [|apply rnd_mono; exact Hv]. pose proof (rnd_err a) as He. apply Rabs_le_inv in He.
  rewrite (Rabs_pos_eq a) in He by lra. pose proof eta_1e30. assert (U : u64 = / 9007199254740992) by reflexivity. rewrite U in He. lra.
Qed.

(** the difference in density after a perturbation larger than all densities has one sign *)
Lemma big_sign (y y' ϕ : f64) M : finite64 y -> finite64 y' -> finite64 ϕ -> Rabs (fval y) <= M -> Rabs (fval y') <= M -> / 1000 <= M <= 100000 ->
  2006 / 1000 * M <= Rabs (fval ϕ) -> exists b, one_sign b (sub y' (add y ϕ)) /\ if b then fval ϕ < 0 else 0 < fval ϕ.
Proof.
  intros Fy Fy' Fϕ Hy Hy' HM Hϕ. apply Rabs_le_inv in Hy, Hy'.
  assert (O1 : Rabs (rnd (fval y + fval ϕ)) < bpow radix2 1024).
  { rewrite Rplus_comm. apply no_overflow; [exact Fϕ|]. apply Rabs_le. lra. }
  destruct (add_val y ϕ Fy Fϕ O1) as [Fi Vi]. change (sf_add y ϕ) with (add y ϕ) in *. set (iso := add y ϕ : f64) in *. clearbody iso.
  assert (O2 : Rabs (rnd (fval y' - fval iso)) < bpow radix2 1024).
  { destruct (SFopp_exact iso Fi) as [Fo Vo]. unfold Rminus. rewrite <- Vo, Rplus_comm. apply no_overflow; [exact Fo|]. apply Rabs_le. lra. }
  destruct (sub_val y' iso Fy' Fi O2) as [Fd Vd]. change (sf_sub y' iso) with (sub y' iso) in *. set (D := sub y' iso : f64) in *. clearbody D.
  destruct fl_zero as [F0 V0]. unfold one_sign. change (eqb D (lit 0 0)) with (SFeqb D (lit 0 0 : f64)). change (ltb (lit 0 0) D) with (SFltb (lit 0 0 : f64) D).
  rewrite (eqb_val D _ Fd F0), (ltb_val _ D F0 Fd), V0.
  destruct (Rle_dec 0 (fval ϕ)) as [P|P].
  - rewrite Rabs_pos_eq in Hϕ by exact P. exists false.
    pose proof (rnd_above (1006 / 1000 * M) (fval y + fval ϕ) ltac:(lra) ltac:(lra)) as H1. rewrite <- Vi in H1.
    pose proof (rnd_above (4 / 1000 * M) (- (fval y' - fval iso)) ltac:(lra) ltac:(lra)) as H2.
    assert (E : rnd (- (fval y' - fval iso)) = - rnd (fval y' - fval iso)).
    { apply round_NE_opp. }
    rewrite E, <- Vd in H2. split; [split; [apply Req_bool_false; lra|apply Rlt_bool_false; lra]|lra].
  - rewrite Rabs_left in Hϕ by lra. exists true.
    pose proof (rnd_above (1006 / 1000 * M) (- (fval y + fval ϕ)) ltac:(lra) ltac:(lra)) as H1.
    assert (E : rnd (- (fval y + fval ϕ)) = - rnd (fval y + fval ϕ)) by apply round_NE_opp. rewrite E, <- Vi in H1.
    pose proof (rnd_above (4 / 1000 * M) (fval y' - fval iso) ltac:(lra) ltac:(lra)) as H2. rewrite <- Vd in H2.
    split; [split; [apply Req_bool_false; lra|apply Rlt_bool_true; lra]|lra].
Qed.

Lemma rel_room eos rho s0 e d' B : base64 eos rho s0 e d' B -> exists d,
  eos64_on (sea s0 10000) eos rho e e (dec 1 (-11)) d B /\ 0 <= d /\ d <= / 1000 /\ 0 <= B <= 10000
  /\ d + 3 * (u64 * (B + d) + eta64) <= d' /\ 2 * d + 71 / 10 * (u64 * (B + d) + eta64) <= 2 * d' /\ 100000 * (d + (u64 * (B + d) + eta64)) <= B /\ / 1000 <= B
  /\ 0 <= s0 /\ continuous3 (sea s0 10000) rho.
Proof.
  pose proof eta_1e30 as Ee.
  intros [dv e0 d0 Hdv Hm|dv e0 d0 Hdv Hm|e0 d0 Hm]; inversion Hm; subst; clear Hm.
  - exists (dec 254 (-14)). split; [exact (jm_eos64 13 254 dv Hdv ckd_jm13)|]. repeat (split; [unfold dec, u64; simpl; lra|]).
    apply (named_cont "jmd95"%string); [constructor|lra].
  - exists (dec 1704 (-14)). split; [exact (jm_eos64 12 1704 dv Hdv ckd_jm12)|]. repeat (split; [unfold dec, u64; simpl; lra|]).
    apply (named_cont "jmd95"%string); [constructor|lra].
  - exists (dec 815 (-14)). split; [exact (jf_eos64 13 815 dv Hdv ckd_jf13)|]. repeat (split; [unfold dec, u64; simpl; lra|]).
    apply (named_cont "jmdfwg06"%string); [constructor|lra].
  - exists (dec 5360 (-14)). split; [exact (jf_eos64 12 5360 dv Hdv ckd_jf12)|]. repeat (split; [unfold dec, u64; simpl; lra|]).
    apply (named_cont "jmdfwg06"%string); [constructor|lra].
  - exists (dec 191 (-19)). split; [exact (teos_eos64 13 191 ckd_v13)|]. repeat (split; [unfold dec, u64; simpl; lra|]).
    apply (named_cont "gsw"%string); [constructor|lra].
  - exists (dec 1384 (-19)). split; [exact (teos_eos64 12 1384 ckd_v12)|]. repeat (split; [unfold dec, u64; simpl; lra|]).
    apply (named_cont "gsw"%string); [constructor|lra].
Qed.
(** what is used of an equation of state *)
Record eos_room (eos : f64 -> f64 -> f64 -> res f64) (rho : R -> R -> R -> R) (s0 pm e d' B d : R) : Prop := {
  er_pm : pm <= 10000;
  er_eos : eos64_on (sea s0 pm) eos rho e e (dec 3 (-12)) d B;
  er_d0 : 0 <= d; er_d1 : d <= / 1000; er_B : / 1000 <= B <= 10000;
  er_d3 : d + 3 * (u64 * (B + d) + eta64) <= d';
  er_d7 : 2 * d + 71 / 10 * (u64 * (B + d) + eta64) <= 2 * d';
  er_dB : 100000 * (d + (u64 * (B + d) + eta64)) <= B;
  er_s0 : 0 <= s0;
  er_cont : continuous3 (sea s0 pm) rho;
  er_nan : forall p : f64, eos NAN NAN p = Ok NAN }.
Lemma named64_room eos rho s0 pm e d' B : named64 eos rho s0 pm e d' B -> exists d, eos_room eos rho s0 pm e d' B d.
Proof.
  intros Hn. assert (Hnan := named_nan _ _ _ _ _ _ _ Hn). revert Hnan.
  destruct Hn as [eos0 rho0 s1 e1 d1 B1 Hb|eos0 rho0 s1 e1 d1 B1 fz zp pm1 Hb Hfz Hzp Hpm Hpz];
    destruct (rel_room _ _ _ _ _ _ Hb) as (d & H1 & H2 & H3 & H4 & H5 & H6 & H7 & H8 & H9 & H10); intros Hnan; exists d.
  - constructor; try assumption; try lra. intros s t p vs vt vp Ds Dt Dp Ws Wt Wp. apply (H1 s t p vs vt vp Ds Dt Dp Ws Wt).
    eapply within_mono; [|exact Wp]. unfold dec. simpl. lra.
  - assert (R : forall y, dP (sea s1 pm1) y -> 0 <= y <= 10000 /\ 0 <= y * zp <= 10000).
    { intros y Hy. cbn [sea box dP] in Hy. unfold upto in Hy. split; [lra|]. split; [apply Rmult_le_pos; lra|].
      apply Rle_trans with (pm1 * zp); [apply Rmult_le_compat_r; lra|exact Hpz]. }
    constructor; try assumption; try lra.
    + intros s t p vs vt vp Ds Dt Dp Ws Wt Wp. destruct (R vp Dp) as [R1 R2].
      apply (H1 s t (mul p fz) vs vt (vp * zp) Ds Dt R2 Ws Wt). apply depth_within; try assumption. lra.
    + intros a b c x Ha Hb' Hc Da Db Dc. destruct (R _ Dc) as [R1 R2]. unfold at_depth.
      apply (H10 a b (fun y => c y * zp) x Ha Hb'); [|exact Da|exact Db|exact R2].
      apply (continuity_pt_mult c (fun _ => zp)); [exact Hc|]. apply continuity_pt_const. intros y z. reflexivity.
Qed.

Section Room.
  Variables (eos : f64 -> f64 -> f64 -> res f64) (rho : R -> R -> R -> R) (s0 pm e d' B d : R).
  Hypothesis Her : eos_room eos rho s0 pm e d' B d.
  Hypothesis He0 : 0 <= e.
  Variable ppc_fn : list f64 -> list f64 -> res (list (list f64)).
  Variable rel : nat -> (nat -> R) -> (nat -> R) -> (R -> R) -> Prop.
  Hypothesis Hppc : interpolator64 ppc_fn rel (powerRZ 2 (-30)) 10000 42 e.
  Variable tol : f64.
  Hypothesis Ftol : finite64 tol.
  Hypothesis Htol : tolerance_ok (fval tol).
  Let Hpm := er_pm _ _ _ _ _ _ _ _ Her.
  Let Heos := er_eos _ _ _ _ _ _ _ _ Her.
  Let Hs0 := er_s0 _ _ _ _ _ _ _ _ Her.
  Let W := u64 * (B + d) + eta64.

  (** a function of one sign on the column *)
  Lemma constant64 zf b (x : f64) S T P S' T' P' k K ss ts ps :
    (forall P Sppc Tppc (p s t : f64) vs vt, ppval_1_nonan_two p P Sppc Tppc 0 = Ok (s, t) ->
      dS (sea s0 pm) vs -> dT (sea s0 pm) vt -> finite64 p -> dP (sea s0 pm) (fval p) ->
      S_float.within s vs e -> S_float.within t vt e -> exists y : f64, zf P Sppc Tppc p = Ok y /\ one_sign b y) ->
    holds_column (S, T, P) (S', T', P') -> cast S' T' P' k K ss ts ps -> (k + 1 < K)%nat ->
    cast_in (sea s0 pm) (S', T', P') -> column_spaced (S', T', P') -> finite64 x -> guess_apart (fval x) (S', T', P') ->
    exists Sppc Tppc (A B : f64), 
      ppc_fn (slice P k K) (slice S k K) = Ok Sppc /\ ppc_fn (slice P k K) (slice T k K) = Ok Tppc
      /\ get (slice P k K) 0 = Ok A /\ get (slice P k K) (length (slice P k K) - 1) = Ok B
      /\ forall fuel, (13 <= fuel)%nat -> guess_to_bounds (zf (slice P k K) Sppc Tppc) fuel x A B = Ok (nan, nan).
  Proof.
    intros Hz (HS & HT & HP) HC H2 Hin Hsp Fx Hga. destruct (Hga _ _ _ _ _ HC) as [XA XB].
    destruct (cast_interpolants64 ppc_fn rel s0 pm e Hpm Hs0 Hppc S T P S' T' P' k K ss ts ps HS HT HP HC H2 Hin Hsp)
      as (Sppc & Tppc & gS & gT & A & C & E1 & E2 & Hpr & G0 & G1 & FA & FB & VA & VB & Hv).
    exists Sppc, Tppc, A, C. split; [exact E1|]. split; [exact E2|]. split; [exact G0|]. split; [exact G1|].
    pose proof (cast_apart S' T' P' k K ss ts ps HC H2 Hsp) as Hap. pose proof (pow2_pos (-30)) as P30.
    assert (AB : fval A <= fval C) by (rewrite VA, VB; lra).
    assert (IN := profile_in (sea s0 pm) rel (S', T', P') gS gT (fval A) (fval C) Hin Hpr).
    assert (OR : forall z, fval A <= z <= fval C -> ordinary z).
    { intros z Iz. apply ordinary_small. destruct (IN _ Iz) as (_ & _ & D3). cbn [sea box dP] in D3. unfold upto in D3. apply Rabs_le. lra. }
    rewrite <- VA, <- VB in XA, XB.
    apply (gtb_constant _ b x A C Fx FA FB (OR _ (conj (Rle_refl _) AB)) (OR _ (conj AB (Rle_refl _))) AB XA XB).
    intros z [Fz Iz]. destruct (Hv z Fz Iz) as (s & u & Ez & Ws & Wt). destruct (IN _ Iz) as (D1 & D2 & D3).
    exact (Hz _ _ _ z s u _ _ Ez D1 D2 Fz D3 Ws Wt).
  Qed.

  (** ** links from lost bottles *)
  Lemma lost_mean (p q : f64) : finite64 p -> 0 <= fval p <= pm -> finite64 q -> 0 <= fval q <= pm ->
    exists v, 0 <= v <= pm /\ S_float.within (mul (add p q) (lit 5 (-1)) : f64) v (dec 3 (-12)).
  Proof.
    intros Fp Hp Fq Hq. exists ((fval p + fval q) / 2). split; [lra|]. apply mean_within; try assumption; lra.
  Qed.
  Lemma lost_diff (pB : f64) P Sppc Tppc (p s t : f64) vs vt : finite64 pB -> 0 <= fval pB <= pm -> ppval_1_nonan_two p P Sppc Tppc 0 = Ok (s, t) ->
    dS (sea s0 pm) vs -> dT (sea s0 pm) vt -> finite64 p -> dP (sea s0 pm) (fval p) ->
    S_float.within s vs e -> S_float.within t vt e -> exists y : f64, pot_dens_diff eos NAN NAN pB P Sppc Tppc p = Ok y /\ one_sign false y.
  Proof.
    intros FB HB Ep Ds Dt Fp Dp Ws Wt. destruct (lost_mean pB p FB HB Fp Dp) as (v & Hv & Wv).
    destruct (Heos s t _ vs vt v Ds Dt Hv Ws Wt Wv) as (_ & y & Ey & _). exists NAN. split; [|exact nan_one_sign].
    unfold pot_dens_diff. rewrite Ep. cbn [bind]. rewrite (er_nan _ _ _ _ _ _ _ _ Her). cbn [bind]. rewrite Ey. reflexivity.
  Qed.
  Lemma lost_link (pB : f64) S T P c' fuel : finite64 pB -> 0 <= fval pB <= pm -> holds_column (S, T, P) c' -> any_cast c' -> cast_in (sea s0 pm) c' ->
    column_spaced c' -> guess_apart (fval pB) c' -> (13 <= fuel)%nat -> ntp_bottle_to_cast_pub eos ppc_fn fuel NAN NAN pB S T P tol = Ok (nan, nan, nan).
  Proof.
    intros FB HB Hh Ha Hin Hsp Hga Hf. destruct c' as [[S' T'] P']. destruct Ha as [Hs|(k & K & ss & ts & ps & HC & H2)].
    - destruct (short_range64 _ _ _ _ _ _ Hh Hs) as (k & K & E & HK). unfold ntp_bottle_to_cast_pub. rewrite E. cbn [bind].
      unfold ntp_bottle_to_cast. rewrite HK. reflexivity.
    - assert (Hlt : Nat.ltb 1 (K - k) = true) by (apply Nat.ltb_lt; lia).
      destruct (constant64 (pot_dens_diff eos NAN NAN pB) false pB S T P S' T' P' k K ss ts ps) as (Sppc & Tppc & A & C & E1 & E2 & G0 & G1 & Hg); try assumption.
      { intros. eapply lost_diff; eassumption. }
      assert (HR := cast_range64 S P S' T' P' k K ss ts ps (proj1 Hh) (proj2 (proj2 Hh)) HC).
      unfold ntp_bottle_to_cast_pub. rewrite HR. cbn [bind]. unfold ntp_bottle_to_cast, ntp_bottle_to_cast_ppc.
      rewrite Hlt, E1, E2. cbn [bind]. rewrite G0, G1. cbn [bind]. rewrite Hg by exact Hf. reflexivity.
  Qed.

  (** ** perturbations of any kind *)
  Lemma W_pos : 0 < W <= / 1000.
  Proof. 
    assert (HB := er_B _ _ _ _ _ _ _ _ Her). apply (W_small d B (er_d0 _ _ _ _ _ _ _ _ Her) (er_d1 _ _ _ _ _ _ _ _ Her)). lra.
  Qed.
  Lemma nan_sub_r (x : f64) : sub x NAN = NAN. Proof. exact (sub_nan_r x). Qed.

  Lemma omega_nothing (x : bottle64) c c' (ϕ : f64) fuel : isfinite ϕ = false -> holds_column c c' -> any_cast c' -> 
    vertsolve_omega_1 eos ppc_fn fuel tol x c ϕ = Ok (nan, nan, nan).
  Proof.
    intros Hϕ Hh Ha. destruct c as [[S T] P], c' as [[S' T'] P']. unfold vertsolve_omega_1.
    assert (Z : (ϕ =? lit 0 0)%num = false) by (destruct ϕ as [s|s| |s m ex]; [discriminate Hϕ|destruct s; reflexivity|reflexivity|discriminate Hϕ]).
    rewrite Z. assert (R : exists k K, valid_range_1_two S P = Ok (k, K)).
    { destruct Ha as [Hs|(k & K & ss & ts & ps & HC & H2)].
      - destruct (short_range64 _ _ _ _ _ _ Hh Hs) as (k & K & E & _). eauto.
      - rewrite (cast_range64 S P S' T' P' k K ss ts ps (proj1 Hh) (proj2 (proj2 Hh)) HC). eauto. }
    destruct R as (k & K & R). rewrite R. cbn [bind]. rewrite Hϕ, andb_false_r. reflexivity.
  Qed.

  Lemma nonzero_eqb (ϕ : f64) : finite64 ϕ -> fval ϕ <> 0 -> (ϕ =? lit 0 0)%num = false.
  Proof.
    intros Fϕ Nϕ. change (ϕ =? lit 0 0)%num with (SFeqb ϕ (lit 0 0 : f64)). destruct fl_zero as [F0 V0]. rewrite eqb_val by assumption.
    rewrite V0. apply Req_bool_false. exact Nϕ.
  Qed.

  (** the search of the omega step finds nothing *)
  Lemma omega_constant (s t p y ϕ : f64) b c c' fuel : finite64 ϕ -> fval ϕ <> 0 -> finite64 p -> eos s t p = Ok y ->
    (forall P Sppc Tppc (q s' t' : f64) vs vt, ppval_1_nonan_two q P Sppc Tppc 0 = Ok (s', t') ->
      dS (sea s0 pm) vs -> dT (sea s0 pm) vt -> finite64 q -> dP (sea s0 pm) (fval q) ->
      S_float.within s' vs e -> S_float.within t' vt e -> exists z : f64, zero_potential eos p (add y ϕ) P Sppc Tppc q = Ok z /\ one_sign b z) ->
    holds_column c c' -> any_cast c' -> cast_in (sea s0 pm) c' -> column_spaced c' -> guess_apart (fval p) c' -> (13 <= fuel)%nat ->
    vertsolve_omega_1 eos ppc_fn fuel tol (s, t, p) c ϕ = Ok (nan, nan, nan).
  Proof.
    intros Fϕ Nϕ Fp Ey Hz Hh Ha Hin Hsp Hga Hf. destruct c as [[S T] P], c' as [[S' T'] P'].
    assert (Z := nonzero_eqb ϕ Fϕ Nϕ). assert (Fi : isfinite ϕ = true) by exact (finite_isfinite ϕ Fϕ).
    destruct Ha as [Hs|(k & K & ss & ts & ps & HC & H2)].
    - destruct (short_range64 _ _ _ _ _ _ Hh Hs) as (k & K & E & HK). unfold vertsolve_omega_1. rewrite Z, E. cbn [bind]. rewrite HK. reflexivity.
    - assert (Hlt : Nat.ltb 1 (K - k) = true) by (apply Nat.ltb_lt; lia).
      destruct (constant64 (zero_potential eos p (add y ϕ)) b p S T P S' T' P' k K ss ts ps Hz Hh HC H2 Hin Hsp Fp Hga)
        as (Sppc & Tppc & A & C & E1 & E2 & G0 & G1 & Hg).
      assert (HR := cast_range64 S P S' T' P' k K ss ts ps (proj1 Hh) (proj2 (proj2 Hh)) HC).
      unfold vertsolve_omega_1. rewrite Z, HR. cbn [bind]. rewrite Hlt, Fi, E1, E2. cbn [bind andb]. rewrite Ey. cbn [bind]. rewrite G0, G1. cbn [bind].
      rewrite Hg by exact Hf. reflexivity.
  Qed.

  Lemma omega_lost (p ϕ : f64) c c' fuel : finite64 ϕ -> fval ϕ <> 0 -> finite64 p -> 0 <= fval p <= pm ->
    holds_column c c' -> any_cast c' -> cast_in (sea s0 pm) c' -> column_spaced c' -> guess_apart (fval p) c' -> (13 <= fuel)%nat ->
    vertsolve_omega_1 eos ppc_fn fuel tol (NAN, NAN, p) c ϕ = Ok (nan, nan, nan).
  Proof.
    intros Fϕ Nϕ Fp Hp. apply (omega_constant NAN NAN p NAN ϕ false c c' fuel Fϕ Nϕ Fp); [apply (er_nan _ _ _ _ _ _ _ _ Her)|].
    intros P Sppc Tppc q s' t' vs vt Eq Ds Dt Fq Dq Ws Wt.
    destruct (Heos s' t' p vs vt (fval p) Ds Dt Hp Ws Wt) as (_ & y & Ey & _).
    { apply within_self; [exact Fp|]. unfold dec. simpl. lra. }
    exists NAN. split; [|exact nan_one_sign]. unfold zero_potential. rewrite Eq. cbn [bind]. rewrite Ey. cbn [bind]. rewrite add_nan_l, nan_sub_r. reflexivity.
  Qed.

  Lemma ep3_pos : 0 <= dec 3 (-12). Proof. unfold dec. simpl. lra. Qed.

  (** any perturbation *)
  Lemma omega_any (s t p ϕ : f64) vs vt c c' : S_float.within s vs e -> dS (sea s0 pm) vs -> S_float.within t vt e -> dT (sea s0 pm) vt ->
    finite64 p -> dP (sea s0 pm) (fval p) -> finite64 ϕ -> fval ϕ <> 0 ->
    holds_column c c' -> any_cast c' -> cast_in (sea s0 pm) c' -> column_spaced c' -> guess_apart (fval p) c' ->
    exists r, (forall fuel, enough_fuel64 fuel (fval tol) c' -> vertsolve_omega_1 eos ppc_fn fuel tol (s, t, p) c ϕ = Ok r)
      /\ surface_point64 rel (potential_of rho (fval p) (rho vs vt (fval p) + fval ϕ)) (fval tol) e (2 * d') c' r.
  Proof.
    intros Ws Ds Wt Dt Fp Dp Fϕ Nϕ Hh Ha Hin Hsp Hga. pose proof W_pos as W0.
    assert (HB := er_B _ _ _ _ _ _ _ _ Her). assert (Hd0 := er_d0 _ _ _ _ _ _ _ _ Her). assert (Hd1 := er_d1 _ _ _ _ _ _ _ _ Her).
    assert (H7 := er_d7 _ _ _ _ _ _ _ _ Her). assert (HdB := er_dB _ _ _ _ _ _ _ _ Her). fold W in H7, HdB.
    assert (U0 : 0 < u64 <= / 100000) by (unfold u64; lra). pose proof eta64_pos as E0.
    assert (UW : u64 * B + u64 * d + eta64 = W) by (unfold W; ring).
    assert (UB : 0 <= u64 * B) by (apply Rmult_le_pos; lra). assert (Ud : 0 <= u64 * d) by (apply Rmult_le_pos; lra).
    destruct (Heos s t p vs vt (fval p) Ds Dt Dp Ws Wt (within_self p _ Fp ep3_pos)) as (Bv & y & Ey & Wy).
    destruct (Rle_dec (Rabs (fval ϕ)) (201 / 100 * B)) as [Bϕ|Bϕ].
    - assert (Wi := add_within y ϕ _ _ d 0 B (201 / 100 * B) Wy (within_self ϕ 0 Fϕ (Rle_refl 0)) Bv Bϕ ltac:(lra)).
      apply (within_mono _ _ _ (d + 301 / 100 * W)) in Wi.
      2:{ replace (u64 * (B + 201 / 100 * B + d + 0)) with (301 / 100 * (u64 * B) + u64 * d) by field. lra. }
      set (vi := rho vs vt (fval p) + fval ϕ) in *.
      assert (Bi : Rabs vi <= 301 / 100 * B) by (unfold vi; eapply Rle_trans; [apply Rabs_triang|]; lra).
      assert (Hz : evaluates64 s0 pm e (zero_potential eos p (add y ϕ)) (potential_of rho (fval p) vi) (2 * d')).
      { intros P Sppc Tppc q s' t' vs' vt' Eq Ds' Dt' Fq Dq Ws' Wt'.
        destruct (Heos s' t' p vs' vt' (fval p) Ds' Dt' Dp Ws' Wt' (within_self p _ Fp ep3_pos)) as (Bv' & y' & Ey' & Wy').
        exists (sub y' (add y ϕ)). split; [unfold zero_potential; rewrite Eq; cbn [bind]; rewrite Ey'; reflexivity|].
        unfold potential_of. refine (within_mono _ _ _ _ _ (sub_within y' (add y ϕ) _ _ _ _ _ _ Wy' Wi Bv' Bi ltac:(lra))).
        replace (u64 * (B + 301 / 100 * B + d + (d + 301 / 100 * W))) with (401 / 100 * (u64 * B) + 2 * (u64 * d) + 301 / 100 * (u64 * W)) by field.
        assert (u64 * W <= / 100000 * W) by (apply Rmult_le_compat_r; lra). lra. }
      destruct c as [[Sc Tc] Pc], c' as [[S' T'] P'].
      assert (Z := nonzero_eqb ϕ Fϕ Nϕ). assert (Fi : isfinite ϕ = true) by exact (finite_isfinite ϕ Fϕ).
      destruct Ha as [Hs|(k & K & ss & ts & ps & HC & H2)].
      + exists (nan, nan, nan). split; [|left; auto]. intros fuel _.
        destruct (short_range64 _ _ _ _ _ _ Hh Hs) as (k & K & E & HK). unfold vertsolve_omega_1. rewrite Z, E. cbn [bind]. rewrite HK. reflexivity.
      + assert (Hlt : Nat.ltb 1 (K - k) = true) by (apply Nat.ltb_lt; lia). destruct (Hga _ _ _ _ _ HC) as [XA XB].
        destruct (column_search64 ppc_fn rel s0 pm e Hpm Hs0 Hppc _ _ (2 * d') tol p Sc Tc Pc S' T' P' k K ss ts ps ltac:(lra) Hz
          (continuous_potential _ _ _ _ Dp (er_cont _ _ _ _ _ _ _ _ Her)) Ftol Htol Hh HC H2 Hin Hsp Fp XA XB)
          as (Sppc & Tppc & A & B' & E1 & E2 & G0 & G1 & _ & _ & _ & _ & Hcs).
        assert (HR := cast_range64 Sc Pc S' T' P' k K ss ts ps (proj1 Hh) (proj2 (proj2 Hh)) HC).
        destruct Hcs as [[Hg Hp]|(a & b & q & s' & t' & Hg & Fa & Hb & Eq & Fq & Hp)].
        * exists (nan, nan, nan). split; [|exact Hp]. intros fuel [F1 F2].
          unfold vertsolve_omega_1. rewrite Z, HR. cbn [bind]. rewrite Hlt, Fi, E1, E2. cbn [bind andb]. rewrite Ey. cbn [bind]. rewrite G0, G1. cbn [bind].
          rewrite Hg by exact F1. reflexivity.
        * exists (s', t', q). split; [|exact Hp]. intros fuel [F1 F2]. specialize (F2 _ _ _ _ _ HC).
          unfold vertsolve_omega_1. rewrite Z, HR. cbn [bind]. rewrite Hlt, Fi, E1, E2. cbn [bind andb]. rewrite Ey. cbn [bind]. rewrite G0, G1. cbn [bind].
          rewrite Hg by exact F1. cbn [bind].
          change (isfinite a) with (sf_isfinite a). rewrite (finite_isfinite a Fa). rewrite Hb by exact F2. cbn [bind]. rewrite Eq. reflexivity.
    - assert (Mag : forall (z : f64) v, S_float.within z v d -> Rabs v <= B -> Rabs (fval z) <= B + d).
      { intros z v [_ Hz] Hv. replace (fval z) with ((fval z - v) + v) by ring. eapply Rle_trans; [apply Rabs_triang|]. lra. }
      assert (Sg : forall y' v', S_float.within y' v' d -> Rabs v' <= B ->
        exists b, one_sign b (sub y' (add y ϕ)) /\ if b then fval ϕ < 0 else 0 < fval ϕ).
      { intros y' v' Wy' Bv'. apply (big_sign y y' ϕ (B + d)); [exact (proj1 Wy)|exact (proj1 Wy')|exact Fϕ|exact (Mag _ _ Wy Bv)|exact (Mag _ _ Wy' Bv')|lra|lra]. }
      assert (Hone : exists b : bool, (if b then fval ϕ < 0 else 0 < fval ϕ) /\
        forall P Sppc Tppc (q s' t' : f64) vs vt, ppval_1_nonan_two q P Sppc Tppc 0 = Ok (s', t') ->
          dS (sea s0 pm) vs -> dT (sea s0 pm) vt -> finite64 q -> dP (sea s0 pm) (fval q) ->
          S_float.within s' vs e -> S_float.within t' vt e -> exists z : f64, zero_potential eos p (add y ϕ) P Sppc Tppc q = Ok z /\ one_sign b z).
      { destruct (Sg y _ Wy Bv) as (b & _ & Hb). exists b. split; [exact Hb|].
        intros P Sppc Tppc q s' t' vs' vt' Eq Ds' Dt' Fq Dq Ws' Wt'.
        destruct (Heos s' t' p vs' vt' (fval p) Ds' Dt' Dp Ws' Wt' (within_self p _ Fp ep3_pos)) as (Bv' & y' & Ey' & Wy').
        exists (sub y' (add y ϕ)). split; [unfold zero_potential; rewrite Eq; cbn [bind]; rewrite Ey'; reflexivity|].
        destruct (Sg y' _ Wy' Bv') as (b' & H1 & H2). replace b with b'; [exact H1|]. destruct b, b'; lra || reflexivity. }
      destruct Hone as (b & Hb & Hz). exists (nan, nan, nan). split.
      { intros fuel [F1 _]. exact (omega_constant s t p y ϕ b c c' fuel Fϕ Nϕ Fp Ey Hz Hh Ha Hin Hsp Hga F1). }
      destruct c as [[Sc Tc] Pc], c' as [[S' T'] P'].
      destruct Ha as [Hs|(k & K & ss & ts & ps & HC & H2)]; [left; auto|right].
      destruct (cast_interpolants64 ppc_fn rel s0 pm e Hpm Hs0 Hppc Sc Tc Pc S' T' P' k K ss ts ps (proj1 Hh) (proj1 (proj2 Hh)) (proj2 (proj2 Hh)) HC H2 Hin Hsp)
        as (Sppc & Tppc & gS & gT & A & C & E1 & E2 & Hpr & G0 & G1 & FA & FB & VA & VB & Hv).
      exists gS, gT, (fval A), (fval C). split; [exact Hpr|]. left. split; [reflexivity|].
      pose proof (cast_apart S' T' P' k K ss ts ps HC H2 Hsp) as Hap. pose proof (pow2_pos (-30)) as P30.
      assert (AB : fval A <= fval C) by (rewrite VA, VB; lra).
      assert (IN := profile_in (sea s0 pm) rel (S', T', P') gS gT (fval A) (fval C) Hin Hpr).
      assert (Hh' : forall z : f64, finite64 z -> fval A <= fval z <= fval C -> Rabs (rho (gS (fval z)) (gT (fval z)) (fval p)) <= B).
      { intros z Fz Iz. destruct (Hv z Fz Iz) as (s' & t' & _ & Ws' & Wt'). destruct (IN _ Iz) as (D1 & D2 & D3).
        destruct (Heos s' t' p _ _ (fval p) D1 D2 Dp Ws' Wt' (within_self p _ Fp ep3_pos)) as (Bv' & _). exact Bv'. }
      pose proof (Hh' A FA (conj (Rle_refl _) AB)) as HA. pose proof (Hh' C FB (conj AB (Rle_refl _))) as HC'.
      apply Rabs_le_inv in HA, HC', Bv. unfold no_change_up_to, potential_of.
      destruct b; [rewrite Rabs_left in Bϕ by lra|rewrite Rabs_pos_eq in Bϕ by lra]; split; lra.
  Qed.

  (** one column of the omega step, whatever the perturbation *)
  Lemma omega_moved (x : bottle64) (ϕ : f64) c c' fuel : float64 ϕ -> (isfinite ϕ = true -> fval ϕ <> 0 -> lost pm x \/ exists vs vt, sampled rel e c' x vs vt) ->
    holds_column c c' -> any_cast c' -> cast_in (sea s0 pm) c' -> column_spaced c' -> starts_below c' -> enough_fuel64 fuel (fval tol) c' ->
    exists y, vertsolve_omega_1 eos ppc_fn fuel tol x c ϕ = Ok y /\ moved64 rel rho pm (fval tol) e (2 * d') c' x ϕ y.
  Proof.
    intros Hf Hx Hh Ha Hin Hsp Hst Hfu. destruct Hf as [Fϕ|Nf].
    2:{ exists (nan, nan, nan). split; [exact (omega_nothing x c c' ϕ fuel Nf Hh Ha)|]. right. left. split; [exact Nf|reflexivity]. }
    destruct (Req_dec (fval ϕ) 0) as [Z|Z].
    - exists x. split.
      + unfold vertsolve_omega_1. assert (E : (ϕ =? lit 0 0)%num = true).
        { change (ϕ =? lit 0 0)%num with (SFeqb ϕ (lit 0 0 : f64)). destruct fl_zero as [F0 V0]. rewrite eqb_val by assumption.
          rewrite V0. apply Req_bool_true. exact Z. }
        rewrite E. reflexivity.
      + left. split; [exact Fϕ|]. split; [exact Z|reflexivity].
    - destruct (Hx (finite_isfinite ϕ Fϕ) Z) as [(p & -> & Fp & Hp)|(vs & vt & Hs)].
      + exists (nan, nan, nan). split; [exact (omega_lost p ϕ c c' fuel Fϕ Z Fp Hp Hh Ha Hin Hsp (starts_guess p c c' Hh Hst Fp) (proj1 Hfu))|].
        right. right. left. split; [exact Fϕ|]. split; [exact Z|]. split; [|reflexivity]. exists p. split; [reflexivity|]. split; [exact Fp|exact Hp].
      + destruct (sampled_in s0 pm e rel c' x vs vt Hin Hs) as (s & t & p & -> & Fp & Ds & Dt & Dp & Ws & Wt).
        destruct (omega_any s t p ϕ vs vt c c' Ws Ds Wt Dt Fp Dp Fϕ Z Hh Ha Hin Hsp (starts_guess p c c' Hh Hst Fp)) as (r & Er & Hr).
        exists r. split; [exact (Er fuel Hfu)|]. right. right. right. split; [exact Fϕ|]. split; [exact Z|]. exists vs, vt. split; [exact Hs|exact Hr].
  Qed.
End Room.
