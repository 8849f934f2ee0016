(** * The Veronis density: final statements *)
From Coq Require Import String ZArith Bool Reals Lra Lia List.
From Coquelicot Require Import Coquelicot.
From Verif Require Import Num XR Res Arr ArrLemmas XRlemmas M_ppinterp S_interp S_poly P_ppinterp P_pval P_pchip P_interp
  P_coeffs NumLaws P_interp2 M_make_pp M_eos_base M_eostools M_label S_traj S_label P_quad P_label P_label2.
Import ListNotations.
Local Open Scope R_scope.

Definition ppc_of (interp : string) : string := (interp ++ "_coeffs_1")%string.

Section Final.
  Variables (S T P : list xr) (K : nat) (ss ts ps : nat -> R) (gS gT : R -> R) (interp : string).
  Hypothesis HPf : profile S T P K ss ts ps.
  Hypothesis Hi : interpolants interp K ss ts ps gS gT.

  Lemma setup junk : exists Sppc Tppc cS cT,
    make_pp interp "1" "coeffs" true 1 = Ok (ppc_of interp)
    /\ ppc_named junk (ppc_of interp) P S = Ok Sppc /\ ppc_named junk (ppc_of interp) P T = Ok Tppc
    /\ last_col Sppc = S
    /\ (forall i, (Datatypes.S i < K)%nat -> nth_error Sppc i = Some (map Fin (cS i)))
    /\ (forall i, (Datatypes.S i < K)%nat -> nth_error Tppc i = Some (map Fin (cT i)))
    /\ (forall i x, (Datatypes.S i < K)%nat -> ps i <= x <= ps (Datatypes.S i) ->
          gS x = pval (x - ps i) (cS i) 0 /\ gT x = pval (x - ps i) (cT i) 0).
  Proof.
    destruct HPf as [HS HT H2 _]. destruct Hi as [(-> & GS & GT)|(-> & GS & GT)].
    - destruct (linear_rows _ _ _ _ _ _ HS junk) as (C & EC & LC & RC).
      destruct (linear_rows _ _ _ _ _ _ HT junk) as (C' & EC' & _ & RC').
      exists C, C', (lin_c ps ss), (lin_c ps ts). split; [reflexivity|].
      split; [exact EC|]. split; [exact EC'|]. split; [assumption|].
      split; [intros; apply RC; lia|]. split; [intros; apply RC'; lia|].
      intros i x Hx Hp. split; [apply (linear_closed _ _ _ _ _ _ HS GS)|apply (linear_closed _ _ _ _ _ _ HT GT)]; assumption.
    - destruct (pchip_rows _ _ _ _ _ _ HS junk) as (C & EC & LC & RC).
      destruct (pchip_rows _ _ _ _ _ _ HT junk) as (C' & EC' & _ & RC').
      exists C, C', (pch_c 0 K ps ss), (pch_c 0 K ps ts). split; [reflexivity|].
      split; [exact EC|]. split; [exact EC'|]. split; [assumption|].
      split; [intros; apply RC; lia|]. split; [intros; apply RC'; lia|].
      intros i x Hx Hp. split; [apply (pchip_closed _ _ _ _ _ _ HS GS)|apply (pchip_closed _ _ _ _ _ _ HT GT)]; assumption.
  Qed.

  Lemma HP_pf i : (i < K)%nat -> nth_error P i = Some (Fin (ps i)).
  Proof. intros H. apply (blk_X _ _ _ _ _ _ (pf_S _ _ _ _ _ _ _ HPf)). lia. Qed.
  Lemma Hinc_pf i : (Datatypes.S i < K)%nat -> ps i < ps (Datatypes.S i).
  Proof. intros H. apply (blk_inc _ _ _ _ _ _ (pf_S _ _ _ _ _ _ _ HPf)); lia. Qed.
  Lemma in_some_piece x : in_range K ps x -> exists i, (Datatypes.S i < K)%nat /\ ps i <= x <= ps (Datatypes.S i).
  Proof.
    intros H. destruct (in_piece_exists _ _ _ _ _ _ (pf_S _ _ _ _ _ _ _ HPf) x ltac:(pose proof (pf_two _ _ _ _ _ _ _ HPf); lia) H) as (i & Hp).
    exists i. destruct Hp as (_ & A & B & _). auto.
  Qed.
  Lemma piece_range i x : (Datatypes.S i < K)%nat -> ps i <= x <= ps (Datatypes.S i) -> in_range K ps x.
  Proof.
    intros H1 H2. pose proof (ps_le K ps Hinc_pf 0 i ltac:(lia) ltac:(lia)).
    pose proof (ps_le K ps Hinc_pf (Datatypes.S i) (K - 1) ltac:(lia) ltac:(lia)). unfold in_range. lra.
  Qed.

  Lemma pot_dens_real junk Sppc Tppc cS cT p0 p_ref h d0 :
    ppc_named junk (ppc_of interp) P S = Ok Sppc -> last_col Sppc = S ->
    (forall i, (Datatypes.S i < K)%nat -> nth_error Sppc i = Some (map Fin (cS i))) ->
    (forall i, (Datatypes.S i < K)%nat -> nth_error Tppc i = Some (map Fin (cT i))) ->
    (forall i x, (Datatypes.S i < K)%nat -> ps i <= x <= ps (Datatypes.S i) ->
          gS x = pval (x - ps i) (cS i) 0 /\ gT x = pval (x - ps i) (cT i) 0) ->
    in_range K ps p0 -> h (Fin (gS p0)) (Fin (gT p0)) (Fin p_ref) = Ok (Fin d0) ->
    pot_dens_1 (Fin p0) (Fin p_ref) P Sppc Tppc h = Ok (Fin d0).
  Proof.
    intros ES LS RS RT HG Hp Hh. unfold pot_dens_1, ppval_1_two. rewrite LS.
    pose proof (pf_two _ _ _ _ _ _ _ HPf).
    destruct (locate_inside _ _ _ _ _ _ (pf_S _ _ _ _ _ _ _ HPf) p0 ltac:(lia) Hp) as (i & -> & _ & A & B & _). cbn [bind].
    rewrite (getP P K ps HP_pf) by lia. cbn [bind].
    rewrite (get_ok _ _ _ (RS i A)), (get_ok _ _ _ (RT i A)). cbn [bind sub xrNum xr_sub fst snd].
    rewrite !pval_fin. destruct (HG i p0 A B) as [<- <-]. assumption.
  Qed.

  (** the gradient on an open piece *)
  Lemma gradient_piece cS cT f g :
    (forall i x, (Datatypes.S i < K)%nat -> ps i <= x <= ps (Datatypes.S i) ->
          gS x = pval (x - ps i) (cS i) 0 /\ gT x = pval (x - ps i) (cT i) 0) ->
    forall i x, (Datatypes.S i < K)%nat -> ps i < x < ps (Datatypes.S i) -> gradient f g gS gT x = yk ps cS cT f g i x.
  Proof.
    intros HG i x Hx Hp. unfold gradient, yk.
    assert (Loc : locally x (fun z => ps i <= z <= ps (Datatypes.S i))).
    { assert (He : 0 < Rmin (x - ps i) (ps (Datatypes.S i) - x)) by (apply Rmin_case; lra).
      exists (mkposreal _ He). intros z Hz. unfold ball in Hz. cbn in Hz. unfold AbsRing_ball, abs, minus, plus, opp in Hz. cbn in Hz.
      apply Rabs_def2 in Hz. pose proof (Rmin_l (x - ps i) (ps (Datatypes.S i) - x)). pose proof (Rmin_r (x - ps i) (ps (Datatypes.S i) - x)). lra. }
    f_equal; f_equal.
    - rewrite (Derive_ext_loc _ (fun z => pval (z - ps i) (cS i) 0)).
      + apply is_derive_unique. apply is_derive_Reals. apply pval_shift_derive.
      + revert Loc. apply filter_imp. intros z Hz. apply HG; assumption.
    - rewrite (Derive_ext_loc _ (fun z => pval (z - ps i) (cT i) 0)).
      + apply is_derive_unique. apply is_derive_Reals. apply pval_shift_derive.
      + revert Loc. apply filter_imp. intros z Hz. apply HG; assumption.
  Qed.

  (** everything at once *)
  Lemma evaluate junk : exists cS cT,
    (forall f g i x, (Datatypes.S i < K)%nat -> ps i < x < ps (Datatypes.S i) -> gradient f g gS gT x = yk ps cS cT f g i x) /\
    forall dp eos grav rho_c p0 p_ref d0 f g, 0 < dp -> density eos grav rho_c K ps gS gT p0 p_ref d0 f g ->
    in_range K ps p0 -> forall p1, in_range K ps p1 -> forall b,
    veronis junk (Fin p1) S T P (Some (Fin p0)) (Fin p_ref) (Fin b) (Fin dp) interp eos grav rho_c
    = Ok (Fin (d0 + b * DD P ps cS cT dp f g p0 p1)).
  Proof.
    destruct (setup junk) as (Sppc & Tppc & cS & cT & EM & ES & ET & LS & RS & RT & HG).
    exists cS, cT. split; [intros f g; apply gradient_piece; assumption|].
    intros dp eos grav rho_c p0 p_ref d0 f g Hdp Hd H0 p1 H1 b. destruct Hd as [(h & x & E1 & Eh) (h2 & x' & E2 & Eh2) Cf Cg].
    unfold veronis. rewrite E1, E2. cbn [bind]. rewrite EM. cbn [bind]. rewrite ES, ET. cbn [bind fst snd].
    unfold _veronis. rewrite (pot_dens_real junk Sppc Tppc cS cT p0 p_ref h d0); try assumption. cbn [bind].
    unfold _veronis_affine. rewrite (int_real P K ps HP_pf Hinc_pf (pf_two _ _ _ _ _ _ _ HPf) (pf_deep _ _ _ _ _ _ _ HPf) Sppc Tppc cS cT RS RT dp Hdp h2 f g).
    - reflexivity.
    - intros i z Hz Hp. destruct (HG i z Hz Hp) as [<- <-]. apply Eh2. apply (piece_range i); assumption.
    - assumption.
    - assumption.
  Qed.
End Final.

(** ** Statements *)
Lemma accuracy : forall junk interp S T P K ss ts ps gS gT eos grav rho_c p0 p1 p_ref d0 f g b dp M W,
  profile S T P K ss ts ps -> interpolants interp K ss ts ps gS gT ->
  density eos grav rho_c K ps gS gT p0 p_ref d0 f g ->
  in_range K ps p0 -> in_range K ps p1 -> 0 < dp ->
  smooth_pieces K ps (gradient f g gS gT) M -> spacing K ps W ->
  exists I v, is_RInt (gradient f g gS gT) p0 p1 I /\
    veronis junk (Fin p1) S T P (Some (Fin p0)) (Fin p_ref) (Fin b) (Fin dp) interp eos grav rho_c = Ok (Fin v) /\
    Rabs (v - (d0 + b * I)) <= Rabs b * (M * dp ^ 2 / 12 * (Rabs (p1 - p0) + 2 * W)).
Proof.
  intros junk interp S T P K ss ts ps gS gT eos grav rho_c p0 p1 p_ref d0 f g b dp M W HP Hi Hd H0 H1 Hdp Hs HW.
  destruct (evaluate S T P K ss ts ps gS gT interp HP Hi junk) as (cS & cT & HY & HE).
  specialize (HY f g).
  pose proof (step_error_C2 K ps (Hinc_pf _ _ _ _ _ _ _ HP) cS cT dp f g (dn_f _ _ _ _ _ _ _ _ _ _ _ _ Hd) (dn_g _ _ _ _ _ _ _ _ _ _ _ _ Hd)
    (gradient f g gS gT) HY M Hs) as SE.
  destruct (DD_integral P K ps (HP_pf _ _ _ _ _ _ _ HP) (Hinc_pf _ _ _ _ _ _ _ HP) (pf_two _ _ _ _ _ _ _ HP) (pf_deep _ _ _ _ _ _ _ HP) cS cT dp Hdp f g
    (dn_f _ _ _ _ _ _ _ _ _ _ _ _ Hd) (dn_g _ _ _ _ _ _ _ _ _ _ _ _ Hd) (gradient f g gS gT) HY p0 p1 H0 H1) as (I & HI & Herr).
  exists I, (d0 + b * DD P ps cS cT dp f g p0 p1). split; [assumption|].
  split; [apply (HE dp eos grav rho_c p0 p_ref d0 f g Hdp Hd H0 p1 H1)|].
  replace (_ - _) with (b * (DD P ps cS cT dp f g p0 p1 - I)) by ring. rewrite Rabs_mult.
  apply Rmult_le_compat_l; [apply Rabs_pos|]. apply Herr; try assumption.
  pose proof (pf_two _ _ _ _ _ _ _ HP) as H2. destruct (Hs 0%nat H2) as (q & q1 & q2 & Hq).
  pose proof (Hinc_pf _ _ _ _ _ _ _ HP 0%nat H2). destruct (Hq (ps 0%nat) ltac:(lra)) as (_ & _ & B & _).
  pose proof (Rabs_pos (q2 (ps 0%nat))). apply Rmult_le_pos; [|lra]. apply Rmult_le_pos; [lra|]. apply pow2_ge_0.
Qed.

Lemma convergence : forall junk interp S T P K ss ts ps gS gT eos grav rho_c p0 p1 p_ref d0 f g b,
  profile S T P K ss ts ps -> interpolants interp K ss ts ps gS gT ->
  density eos grav rho_c K ps gS gT p0 p_ref d0 f g ->
  in_range K ps p0 -> in_range K ps p1 ->
  exists I, is_RInt (gradient f g gS gT) p0 p1 I /\
  forall eps, 0 < eps -> exists delta, 0 < delta /\ forall dp, 0 < dp <= delta -> exists v,
    veronis junk (Fin p1) S T P (Some (Fin p0)) (Fin p_ref) (Fin b) (Fin dp) interp eos grav rho_c = Ok (Fin v) /\
    Rabs (v - (d0 + b * I)) <= eps.
Proof.
  intros junk interp S T P K ss ts ps gS gT eos grav rho_c p0 p1 p_ref d0 f g b HP Hi Hd H0 H1.
  set (Cf := dn_f _ _ _ _ _ _ _ _ _ _ _ _ Hd). set (Cg := dn_g _ _ _ _ _ _ _ _ _ _ _ _ Hd).
  pose proof (pf_two _ _ _ _ _ _ _ HP) as H2.
  set (W := ps (K - 1)%nat - ps 0%nat).
  assert (HW : spacing K ps W).
  { intros i Hlt. pose proof (ps_le K ps (Hinc_pf _ _ _ _ _ _ _ HP) 0 i ltac:(lia) ltac:(lia)).
    pose proof (ps_le K ps (Hinc_pf _ _ _ _ _ _ _ HP) (Datatypes.S i) (K - 1) ltac:(lia) ltac:(lia)). unfold W. lra. }
  assert (HW0 : 0 < W).
  { pose proof (HW 0%nat H2). pose proof (Hinc_pf _ _ _ _ _ _ _ HP 0%nat H2). lra. }
  destruct (evaluate S T P K ss ts ps gS gT interp HP Hi junk) as (cS & cT & HY & HE). specialize (HY f g).
  destruct (DD_integral P K ps (HP_pf _ _ _ _ _ _ _ HP) (Hinc_pf _ _ _ _ _ _ _ HP) H2 (pf_deep _ _ _ _ _ _ _ HP) cS cT 1 Rlt_0_1 f g
      Cf Cg (gradient f g gS gT) HY p0 p1 H0 H1) as (I & HI & _).
  exists I. split; [assumption|]. intros eps Heps.
  set (L := (Rabs b + 1) * (Rabs (p1 - p0) + 2 * W)).
  assert (HL : 0 < L).
  { pose proof (Rabs_pos b). pose proof (Rabs_pos (p1 - p0)). apply Rmult_lt_0_compat; lra. }
  assert (He : 0 < eps / L) by (apply Rdiv_lt_0_compat; assumption).
  destruct (step_error_small K ps cS cT f g (eps / L) (Hinc_pf _ _ _ _ _ _ _ HP) Cf Cg He) as (delta & Hdel & HSE).
  exists delta. split; [assumption|]. intros dp [Hdp Hle]. exists (d0 + b * DD P ps cS cT dp f g p0 p1).
  split; [apply (HE dp eos grav rho_c p0 p_ref d0 f g Hdp Hd H0 p1 H1)|].
  destruct (DD_integral P K ps (HP_pf _ _ _ _ _ _ _ HP) (Hinc_pf _ _ _ _ _ _ _ HP) H2 (pf_deep _ _ _ _ _ _ _ HP) cS cT dp Hdp f g
      Cf Cg (gradient f g gS gT) HY p0 p1 H0 H1) as (I' & HI' & Herr).
  assert (I' = I).
  { rewrite <- (is_RInt_unique (V := R_CompleteNormedModule) _ _ _ _ HI).
    symmetry. apply (is_RInt_unique (V := R_CompleteNormedModule)). assumption. }
  subst I'. specialize (Herr (eps / L) W ltac:(lra) (HSE dp Hle) HW).
  replace (_ - _) with (b * (DD P ps cS cT dp f g p0 p1 - I)) by ring. rewrite Rabs_mult.
  apply Rle_trans with ((Rabs b + 1) * (eps / L * (Rabs (p1 - p0) + 2 * W))).
  - pose proof (Rabs_pos b). apply Rmult_le_compat; [assumption|apply Rabs_pos|lra|assumption].
  - right. pose proof (Rabs_pos b). pose proof (Rabs_pos (p1 - p0)). unfold L. field. split; lra.
Qed.

Lemma additive : forall junk interp S T P K ss ts ps gS gT eos grav rho_c p0 q p1 p_ref d0 dq f g b dp,
  profile S T P K ss ts ps -> interpolants interp K ss ts ps gS gT ->
  density eos grav rho_c K ps gS gT p0 p_ref d0 f g -> density eos grav rho_c K ps gS gT q p_ref dq f g ->
  in_range K ps p0 -> in_range K ps q -> in_range K ps p1 -> 0 < dp ->
  exists A B,
    veronis junk (Fin q) S T P (Some (Fin p0)) (Fin p_ref) (Fin b) (Fin dp) interp eos grav rho_c = Ok (Fin (d0 + b * A)) /\
    veronis junk (Fin p1) S T P (Some (Fin q)) (Fin p_ref) (Fin b) (Fin dp) interp eos grav rho_c = Ok (Fin (dq + b * B)) /\
    veronis junk (Fin p1) S T P (Some (Fin p0)) (Fin p_ref) (Fin b) (Fin dp) interp eos grav rho_c = Ok (Fin (d0 + b * (A + B))) /\
    (q = p0 -> A = 0).
Proof.
  intros junk interp S T P K ss ts ps gS gT eos grav rho_c p0 q p1 p_ref d0 dq f g b dp HP Hi Hd Hq H0 Hqr H1 Hdp.
  destruct (evaluate S T P K ss ts ps gS gT interp HP Hi junk) as (cS & cT & _ & HE).
  set (DDD := DD P ps cS cT dp f g). exists (DDD p0 q), (DDD q p1).
  split; [apply (HE dp eos grav rho_c p0 p_ref d0 f g Hdp Hd H0 q Hqr)|].
  split; [apply (HE dp eos grav rho_c q p_ref dq f g Hdp Hq Hqr p1 H1)|].
  pose proof (DD_add P K ps (HP_pf _ _ _ _ _ _ _ HP) (Hinc_pf _ _ _ _ _ _ _ HP) (pf_two _ _ _ _ _ _ _ HP) (pf_deep _ _ _ _ _ _ _ HP) cS cT dp f g) as HA.
  split.
  - unfold DDD. rewrite HA by assumption. apply (HE dp eos grav rho_c p0 p_ref d0 f g Hdp Hd H0 p1 H1).
  - intros ->. pose proof (HA p0 p0 p0 H0 H0 H0). unfold DDD. lra.
Qed.

(** outside the range of a cast without missing data *)
Lemma int_outside P K ps Sppc Tppc dp eos_s_t p0 p1 :
  (forall i, (i < K)%nat -> nth_error P i = Some (Fin (ps i))) -> length P = K -> (1 < K)%nat ->
  ~ inside K ps p0 \/ ~ inside K ps p1 -> _int_dlrpd_dz p1 p0 P Sppc Tppc dp eos_s_t = Ok NaN.
Proof.
  intros HP HL H2 Ho. unfold _int_dlrpd_dz.
  rewrite (get_ok _ _ _ (HP 0%nat ltac:(lia))). cbn [bind]. rewrite HL, (get_ok _ _ _ (HP (K - 1)%nat ltac:(lia))). cbn [bind].
  match goal with |- context [if ?c then _ else _] => assert (Hc : c = true); [|rewrite Hc; reflexivity] end.
  assert (Hb : forall p, xr_ltb p (Fin (ps 0%nat)) = false -> xr_ltb (Fin (ps (K - 1)%nat)) p = false -> p <> NaN -> inside K ps p).
  { intros [r| | |] A B C; cbn in A, B; try discriminate; [|congruence].
    exists r. split; [reflexivity|]. revert A B. destruct (Rltb_spec r (ps 0%nat)), (Rltb_spec (ps (K - 1)%nat) r); try discriminate.
    unfold in_range. lra. }
  cbn [add ltb isnan xrNum].
  destruct (xr_ltb p0 (Fin (ps 0%nat))) eqn:A0; [rewrite orb_true_r; reflexivity|].
  destruct (xr_ltb (Fin (ps (K - 1)%nat)) p0) eqn:B0; [rewrite !orb_true_r; reflexivity|].
  destruct (xr_ltb p1 (Fin (ps 0%nat))) eqn:A1; [rewrite !orb_true_r; reflexivity|].
  destruct (xr_ltb (Fin (ps (K - 1)%nat)) p1) eqn:B1; [rewrite !orb_true_r; reflexivity|].
  destruct p0 as [r0| | |] eqn:E0; [|discriminate B0|discriminate A0|reflexivity].
  destruct p1 as [r1| | |] eqn:E1; [|discriminate B1|discriminate A1|reflexivity].
  exfalso. destruct Ho as [Ho|Ho]; apply Ho; apply Hb; auto; discriminate.
Qed.

Lemma outside : forall junk interp S T P K ss ts ps eos grav rho_c p0 p1 p_ref b dp,
  profile S T P K ss ts ps -> length P = K -> interp = "linear"%string \/ interp = "pchip"%string ->
  (exists h x h2 y, _process_eos sdiv eos grav rho_c true = Ok (F1 h, x) /\
     _process_eos adiv eos grav rho_c true = Ok (y, Some (F2 h2)) /\ forall s t, exists v, h s t p_ref = Ok v) ->
  ~ inside K ps p0 \/ ~ inside K ps p1 ->
  veronis junk p1 S T P (Some p0) p_ref b dp interp eos grav rho_c = Ok NaN.
Proof.
  intros junk interp S T P K ss ts ps eos grav rho_c p0 p1 p_ref b dp HP HL Hi (h & x & h2 & y & E1 & E2 & Hh) Ho.
  assert (HSt : exists Sppc Tppc cS cT, make_pp interp "1" "coeffs" true 1 = Ok (ppc_of interp)
    /\ ppc_named junk (ppc_of interp) P S = Ok Sppc /\ ppc_named junk (ppc_of interp) P T = Ok Tppc /\ last_col Sppc = S
    /\ (forall i, (Datatypes.S i < K)%nat -> nth_error Sppc i = Some (map Fin (cS i)))
    /\ (forall i, (Datatypes.S i < K)%nat -> nth_error Tppc i = Some (map Fin (cT i)))).
  { destruct HP as [HS HT H2 _]. destruct Hi as [-> | ->].
    - destruct (linear_rows _ _ _ _ _ _ HS junk) as (C & EC & LC & RC).
      destruct (linear_rows _ _ _ _ _ _ HT junk) as (C' & EC' & _ & RC').
      exists C, C', (lin_c ps ss), (lin_c ps ts). split; [reflexivity|]. split; [exact EC|]. split; [exact EC'|]. split; [exact LC|].
      split; intros; [apply RC|apply RC']; lia.
    - destruct (pchip_rows _ _ _ _ _ _ HS junk) as (C & EC & LC & RC).
      destruct (pchip_rows _ _ _ _ _ _ HT junk) as (C' & EC' & _ & RC').
      exists C, C', (pch_c 0 K ps ss), (pch_c 0 K ps ts). split; [reflexivity|]. split; [exact EC|]. split; [exact EC'|]. split; [exact LC|].
      split; intros; [apply RC|apply RC']; lia. }
  destruct HSt as (Sppc & Tppc & cS & cT & EM & ES & ET & LS & RS & RT).
  unfold veronis. rewrite E1, E2. cbn [bind]. rewrite EM. cbn [bind]. rewrite ES, ET. cbn [bind fst snd].
  unfold _veronis.
  assert (HPD : exists d0, pot_dens_1 p0 p_ref P Sppc Tppc h = Ok d0).
  { unfold pot_dens_1, ppval_1_two. rewrite LS.
    destruct (block_locate_total _ _ _ _ _ _ p0 (pf_S _ _ _ _ _ _ _ HP)) as [Hn|(r & i & -> & Hin)].
    - rewrite (locate_outside _ _ _ _ _ _ (pf_S _ _ _ _ _ _ _ HP) p0 Hn). cbn [bind fst snd]. apply Hh.
    - rewrite (locate_piece _ _ _ _ _ _ (pf_S _ _ _ _ _ _ _ HP) r i Hin). cbn [bind]. destruct Hin as (_ & A & _).
      rewrite (getP P K ps (HP_pf _ _ _ _ _ _ _ HP)) by lia. cbn [bind].
      rewrite (get_ok _ _ _ (RS i A)), (get_ok _ _ _ (RT i A)). cbn [bind]. apply Hh. }
  destruct HPD as (d0 & ->). cbn [bind]. unfold _veronis_affine.
  rewrite (int_outside P K ps Sppc Tppc dp h2 p0 p1 (HP_pf _ _ _ _ _ _ _ HP) HL (pf_two _ _ _ _ _ _ _ HP) Ho). cbn [bind add mul xrNum].
  destruct b; destruct d0; reflexivity.
Qed.

(** ** Where the error is smaller than the change, the density increases *)
Lemma int_at_least K ps y m : (forall i, (S i < K)%nat -> ps i < ps (S i)) -> forall n, (n < K)%nat -> forall a b I,
  ps 0%nat <= a -> a <= b -> b <= ps n ->
  (forall i x, (S i < K)%nat -> ps i < x < ps (S i) -> a < x < b -> m <= y x) -> is_RInt y a b I -> m * (b - a) <= I.
Proof.
  intros Hp. induction n as [|n IH]; intros Hn a b I Ha Hab Hb Hy HI.
  - assert (E : b = a) by lra. subst b. pose proof (is_RInt_unique _ _ _ _ HI) as U. rewrite RInt_point in U. assert (E0 : I = 0) by (rewrite <- U; reflexivity). rewrite E0. lra.
  - specialize (IH ltac:(lia)). destruct (Rle_dec b (ps n)) as [L|L]; [apply IH; assumption|].
    assert (Hex : ex_RInt y a b) by (exists I; exact HI).
    assert (last : forall a' J, a <= a' -> ps n <= a' -> a' <= b -> is_RInt y a' b J -> m * (b - a') <= J).
    { intros a' J H1 H2 H3 HJ. pose proof (is_RInt_const a' b m) as HC.
      pose proof (is_RInt_le (fun _ => m) y a' b _ _ H3 HC HJ) as Q. unfold scal in Q. cbn in Q. unfold mult in Q. cbn in Q.
      rewrite Rmult_comm. apply Q. intros x Hx. apply (Hy n x Hn); lra. }
    destruct (Rle_dec (ps n) a) as [L2|L2]; [apply (last a I); lra || assumption|].
    assert (E1 : ex_RInt y a (ps n)) by (apply (ex_RInt_Chasles_1 y a (ps n) b); [lra|exact Hex]).
    assert (E2 : ex_RInt y (ps n) b) by (apply (ex_RInt_Chasles_2 y a (ps n) b); [lra|exact Hex]).
    destruct E1 as [I1 E1]. destruct E2 as [I2 E2].
    pose proof (is_RInt_Chasles _ _ _ _ _ _ E1 E2) as E3. pose proof (is_RInt_unique _ _ _ _ E3) as U1. pose proof (is_RInt_unique _ _ _ _ HI) as U2.
    assert (EI : I = I1 + I2) by (rewrite <- U2, U1; reflexivity).
    pose proof (IH a (ps n) I1 Ha ltac:(lra) (Rle_refl _) ltac:(intros i x H1 H2 H3; apply (Hy i x H1 H2); lra) E1) as Q1.
    pose proof (last (ps n) I2 ltac:(lra) (Rle_refl _) ltac:(lra) E2) as Q2. rewrite EI. lra.
Qed.

Lemma increasing : forall junk interp S T P K ss ts ps gS gT eos grav rho_c p0 q p1 p_ref d0 dq f g b dp M W m,
  profile S T P K ss ts ps -> interpolants interp K ss ts ps gS gT ->
  density eos grav rho_c K ps gS gT p0 p_ref d0 f g -> density eos grav rho_c K ps gS gT q p_ref dq f g ->
  in_range K ps p0 -> in_range K ps q -> in_range K ps p1 -> 0 < dp -> 0 < b -> q < p1 ->
  smooth_pieces K ps (gradient f g gS gT) M -> spacing K ps W ->
  (forall i x, (i + 1 < K)%nat -> ps i < x < ps (i + 1)%nat -> q < x < p1 -> m <= gradient f g gS gT x) ->
  M * dp ^ 2 / 12 * (p1 - q + 2 * W) < m * (p1 - q) ->
  exists u v, veronis junk (Fin q) S T P (Some (Fin p0)) (Fin p_ref) (Fin b) (Fin dp) interp eos grav rho_c = Ok (Fin u)
    /\ veronis junk (Fin p1) S T P (Some (Fin p0)) (Fin p_ref) (Fin b) (Fin dp) interp eos grav rho_c = Ok (Fin v) /\ u < v.
Proof.
  intros junk interp S T P K ss ts ps gS gT eos grav rho_c p0 q p1 p_ref d0 dq f g b dp M W m HP Hi Hd Hdq H0 Hq H1 Hdp Hb Hlt Hs HW Hm Hsm.
  destruct (additive junk interp S T P K ss ts ps gS gT eos grav rho_c p0 q p1 p_ref d0 dq f g b dp HP Hi Hd Hdq H0 Hq H1 Hdp) as (A & B & EA & EB & EAB & _).
  destruct (accuracy junk interp S T P K ss ts ps gS gT eos grav rho_c q p1 p_ref dq f g b dp M W HP Hi Hdq Hq H1 Hdp Hs HW) as (I & v & HI & Ev & Hv).
  rewrite EB in Ev. injection Ev as <-. exists (d0 + b * A), (d0 + b * (A + B)). split; [exact EA|]. split; [exact EAB|].
  pose proof (int_at_least K ps (gradient f g gS gT) m (fun i H => Hinc_pf _ _ _ _ _ _ _ HP i H) (K - 1) ltac:(pose proof (pf_two _ _ _ _ _ _ _ HP); lia)
    q p1 I (proj1 Hq) ltac:(lra) (proj2 H1) ltac:(intros i x Hik Hx Hqx; apply (Hm i x); [lia|rewrite Nat.add_1_r; exact Hx|exact Hqx]) HI) as HL.
  rewrite (Rabs_right (p1 - q)), (Rabs_right b) in Hv by lra. apply Rabs_le_between in Hv.
  set (E := M * dp ^ 2 / 12 * (p1 - q + 2 * W)) in *.
  assert (0 < b * B); [|lra].
  assert (b * (I - E) <= b * B) by lra. assert (0 < b * (I - E)) by (apply Rmult_lt_0_compat; lra). lra.
Qed.

(** any arithmetic: the default of p0, and a function alone as equation of state *)
Lemma default_p0 {F} {N : Num F} junk (p1 : F) S T P x p_ref b dp interp eos grav rho_c :
  veronis junk p1 S T (x :: P) None p_ref b dp interp eos grav rho_c
  = veronis junk p1 S T (x :: P) (Some x) p_ref b dp interp eos grav rho_c.
Proof. reflexivity. Qed.

Lemma plain_function {F} {N : Num F} junk (p1 : F) S T P p0 p_ref b dp interp f grav rho_c :
  veronis junk p1 S T P p0 p_ref b dp interp (AFun f) grav rho_c = Err ValueError.
Proof. reflexivity. Qed.
