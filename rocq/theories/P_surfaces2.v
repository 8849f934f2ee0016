(** * The entry point omega_surf *)
From Coq Require Import String ZArith Bool List Reals Lra Lia Arith.
From Verif Require Import Num XR Res Arr ArrLemmas Nd NdLemmas XRlemmas M_graph M_lib M_make_pp M_eos_base M_eostools M_mixed_layer M_ntp M_ppinterp M_matsolve M_vertsolve M_omega
  M_surfaces S_graph S_lib S_eos S_interp S_traj S_vertsolve S_ntp S_matsolve S_wet S_omega S_mixed_layer S_named S_surfaces
  P_casts P_pin P_mixed_layer2 P_mlnamed P_eosocean P_traj P_vertsolve P_isopycnal P_ntp P_omega P_omega_exact P_omega_interp P_named P_surfaces.
Import ListNotations.
Local Open Scope R_scope.

Lemma interp_two_ok interp rel : named_interp interp rel ->
  exists itp, make_pp interp "u" "interp" true 2 = Ok itp /\ column_interp rel (interp_two_named itp).
Proof.
  intros [|].
  - exists "linear_interp_two"%string. split; [reflexivity|]. apply linear_column_interp.
  - exists "pchip_interp_two"%string. split; [reflexivity|]. apply pchip_column_interp.
Qed.

Lemma ravel_multi sh : forall h, valid sh h -> ravel_multi_index (map Z.of_nat h) sh = Ok (ravel sh h).
Proof.
  induction sh as [|m sh IH]; intros h V; inversion V as [|? i ? h' Hi V']; subst; [reflexivity|].
  cbn [map ravel_multi_index ravel]. rewrite (proj2 (Z.leb_le _ _)), (proj2 (Z.ltb_lt _ _)) by lia. cbn [andb].
  rewrite (IH h' V'). cbn [bind]. rewrite Nat2Z.id. reflexivity.
Qed.

Lemma sample_named name v zp : named_eos name v -> ocean 34.5 3 (1000 * zp) ->
  ltb (Fin (at_depth zp v 34.5 3 1000)) (lit 1 0) = String.eqb name "gsw".
Proof.
  intros Hn Ho. replace (@lit xr _ 1 0) with (Fin 1) by (cbn [lit xrNum]; f_equal; unfold Rlit; cbn; lra). cbn [ltb xrNum xr_ltb]. unfold Rltb, at_depth.
  destruct Hn; cbn [String.eqb Ascii.eqb Bool.eqb]; match goal with |- context [Rlt_dec ?a ?b] => destruct (Rlt_dec a b) as [H|H] end; trivial; exfalso.
  - apply H. apply teos_range. exact Ho.
  - pose proof (jm_gt_1 _ _ _ Ho). lra.
  - pose proof (jf_gt_1 _ _ _ Ho). lra.
Qed.

Section Named.
  Variables (name : string) (v : R -> R -> R -> R) (grav rho_c : option xr) (zp : R).
  Hypotheses (Hname : named_eos name v) (Hzp : pressure_factor grav rho_c zp) (Hsample : 0 <= 1000 * zp <= 10000).
  Variables (interp : string) (rel : nat -> (nat -> R) -> (nat -> R) -> (R -> R) -> Prop).
  Hypothesis Hinterp : named_interp interp rel.
  Variables (o : @options xr) (tol : R).
  Hypotheses (Ho : TOL_P_SOLVER o = Fin tol) (Htol : 0 < tol)
    (Hform : spells "poisson" (OMEGA_FORMULATION o) \/ spells "gradient" (OMEGA_FORMULATION o))
    (Hmax : o_diags o = true -> (0 < ITER_MAX o)%Z).
  Variables (S T P : @data xr) (vd : vdim) (s1 : list nat) (n : nat) (s2 : list nat) (c : list nat -> column).
  Notation sh := (s1 ++ s2).
  Notation casts := (map c (all_idx (s1 ++ s2))).
  Variable fuel : nat.
  Hypotheses (Hw : water_columns S T P vd s1 n s2 c) (Hsh : s1 ++ s2 <> [])
    (Hc : forall h, valid sh h -> any_cast (c h) /\ cast_in (seas zp) (c h) /\ same_extent (c h) /\ enough_fuel fuel tol (c h)).
  Variables (grid : @gridarg xr) (edges : list (nat * nat)) (dist distperp : list R).
  Hypotheses (Hgeo : geometry sh grid edges dist distperp) (Hperp : Forall (fun x => 0 < x) distperp) (Hne : edges <> []).
  Variables (index : string -> option (list xr)) (pin : @pinarg xr) (h0 : list nat) (pp : R) (p_init : @initarg xr) (p_ml : @mlarg xr).
  Hypotheses (Hh0 : valid sh h0) (Hpin : pins_omega S (length s1) index pin h0) (Hpp : has_pressure (c h0) pp)
    (Hinit : init_at sh h0 pp p_init) (Hml : ml_above sh h0 pp p_ml).
  Variables (spsolve : nat -> (nat -> nat -> xr) -> list xr -> list xr) (lsqr : nat -> nat -> (nat -> nat -> xr) -> list xr -> list xr).
  Hypotheses (Hsp : exact_spsolve spsolve) (Hls : exact_lsqr lsqr).
  Variables (junk0 : xr) (loop_fuel : nat) (junk : Z -> list nat) (junk_p junk_i : list nat).
  Hypotheses (Hlf : (prod sh < loop_fuel)%nat) (Hjunk : forall k, (prod sh <= length (junk k))%nat)
    (Hjp : (prod sh < length junk_p)%nat) (Hji : (2 * length edges <= length junk_i)%nat).

  Lemma pin_flat : exists t, pin_of pin S index = Ok t /\ (t = CTuple (map Z.of_nat h0) \/ t = CList (map Z.of_nat h0)).
  Proof.
    destruct Hpin as [->|Hd]; [eexists; split; [reflexivity|right; reflexivity]|].
    remember (map Z.of_nat h0) as t eqn:Et. destruct Hd as [t|z|d d1 nm d2 Hd Hl Hm Hinc Hs|Hd].
    - eexists. split; [reflexivity|left; reflexivity].
    - eexists. split; [reflexivity|left; reflexivity].
    - exists (CTuple (map Z.of_nat h0)). split; [|left; reflexivity].
      unfold pin_of. rewrite Hd. assert (HN : NoDup (d1 ++ d2)).
      { destruct Hw as [_ _ _ [[HL _] _] _ _]. destruct (HL _ Hd) as [HN _]. exact (NoDup_remove_1 _ _ _ HN). }
      rewrite (process_pin_cast_ordered (d1 ++ d2) index d h0 HN Hm Hinc Hs). destruct d as [|q d]; reflexivity.
    - exists (CTuple []). split; [reflexivity|left; reflexivity].
  Qed.

  Lemma len_casts : length casts = prod sh.
  Proof. rewrite map_length. apply length_all_idx. Qed.
  Lemma nth_casts h : valid sh h -> nth_error casts (ravel sh h) = Some (c h).
  Proof. intros V. rewrite nth_error_map, nth_error_all_idx by exact V. reflexivity. Qed.
  Lemma in_casts y : In y casts -> any_cast y /\ cast_in (seas zp) y /\ same_extent y /\ enough_fuel fuel tol y.
  Proof. intros Hy. apply in_map_iff in Hy. destruct Hy as (h & <- & Hh). apply Hc. apply in_all_idx. exact Hh. Qed.

  Definition ml_opt : option (list xr) := match p_ml with MArray a => Some (elems a) | _ => None end.
  Definition init_flat : @pinit xr :=
    match p_init with
    | InitScalar p => IScalar p
    | InitArray d => IArray (shape (arr d)) (elems (arr d))
    | InitOther => IOther
    end.

  Lemma surface_at x : surface rel casts x -> length x = prod sh
    /\ forall h, valid sh h -> snd (at_pos sh x h) = NaN \/ on_cast rel (c h) (at_pos sh x h).
  Proof.
    intros [L H]. rewrite len_casts in L. split; [exact L|]. intros h V.
    apply (H (ravel sh h)); [apply at_pos_nth; assumption|apply nth_casts; exact V].
  Qed.

  (** the surface at the end of an iteration has salinity and temperature only with pressure *)
  Lemma out_clean vs vt weight r : step rel (at_depth zp v) vs vt tol casts edges weight (ravel sh h0) o r -> Forall (clean (seas zp)) (i_out r).
  Proof.
    intros [Hwet Hout Hnodes (w & Hw' & (f & Lf & Hin & Hnin & _)) _ Hmove _ _].
    apply Forall_forall. intros y Hy. apply In_nth_error in Hy. destruct Hy as [i Hi]. pose proof (nth_error_lt _ _ _ Hi) as Hlt.
    destruct Hout as [Lo _]. rewrite Lo in Hlt. destruct Hwet as [Lw Hwet].
    destruct (nth_error (i_wet r) i) as [b|] eqn:Eb; [|apply nth_error_None in Eb; lia].
    destruct (nth_error casts i) as [cc|] eqn:Ec; [|apply nth_error_None in Ec; lia].
    pose proof (in_casts cc (nth_error_In _ _ Ec)) as (_ & Hcin & _).
    destruct (in_dec Nat.eq_dec i (i_nodes r)) as [Hn|Hn].
    - destruct (Hmove i b cc (Fin (f i)) y Eb Ec (Hin i Hn) Hi) as (H0 & _ & H2).
      destruct (Hw' i Hn) as (b' & Eb' & Hb). rewrite Eb in Eb'. injection Eb' as <-. destruct (w i) as [[s t] p]. cbn in Hb. subst b.
      destruct (Req_EM_T (f i) 0) as [E0|E0].
      + rewrite E0 in H0. rewrite (H0 eq_refl). left. destruct (Hwet _ _ _ Eb Ec) as [Hnan|Hon]; [discriminate|].
        destruct Hon as (gS & gT & lo & hi & q & Hpr & Hq & E). rewrite E. exists (gS q), (gT q), q. split; [reflexivity|].
        apply (profile_in (seas zp) rel cc gS gT lo hi); assumption.
      + eapply surface_clean; [exact Hcin|]. exact (H2 s t p (f i) eq_refl eq_refl E0).
    - destruct (Hmove i b cc NaN y Eb Ec (Hnin i Hlt Hn) Hi) as (_ & H1 & _). rewrite (H1 eq_refl). right. left. reflexivity.
  Qed.

  Definition tolerance : xr := if String.eqb name "gsw" then div (TOL_LRPD_MAV o) (lit 1 6) else TOL_LRPD_MAV o.

  Lemma omega_named :
    exists s t p x d its x0,
      omega_surf_pub spsolve lsqr junk0 fuel loop_fuel junk junk_p junk_i S T P grid pin p_init index
        (mkOmega vd p_ml (AStr name) rho_c grav interp o) = Ok (s, t, p, d, its)
      /\ holds S T s1 s2 s t p (at_pos sh x)
      /\ (forall h, valid sh h -> snd (at_pos sh x h) = NaN \/ on_cast rel (c h) (at_pos sh x h))
      /\ on_cast rel (c h0) (at_pos sh x h0) /\ snd (at_pos sh x h0) = Fin pp
      /\ run o tolerance (ml_list sh p_ml) (ravel sh h0) (Fin pp) x0 its x
      /\ initial_surface rel sh c h0 pp p_init (at_pos sh x0)
      /\ (d = None <-> o_diags o = false)
      /\ exists vs vt, partials (seas zp) (at_depth zp v) vs vt
         /\ Forall (step rel (at_depth zp v) vs vt tol casts edges (weights dist distperp) (ravel sh h0) o) its
         /\ forall d', d = Some d' -> exists r m, nth_error (d_e_RMS d') (length its) = Some (Fin r)
              /\ nth_error (d_e_MAV d') (length its) = Some (Fin m) /\ neutrality_norms vs vt sh edges dist distperp (at_pos sh x) r m.
  Proof.
    destruct (process_named name v grav rho_c zp true Hname Hzp) as (f & g & vs & vt & Ee & Hf & Hg).
    destruct (coeffs_named interp rel junk0 Hinterp) as (ppc & Ep & Hi).
    destruct (interp_two_ok interp rel Hinterp) as (itp & Et & Hit).
    pose proof Hgeo as [(gd & gp & Egrid & Hd & Hp) He Hd0 _].
    assert (Hin : in_range edges (length casts)).
    { rewrite len_casts. rewrite Forall_forall in He. intros a b Hab. apply (He _ Hab). }
    assert (HwD : water_in (seas zp) (34.5, 3, 1000)).
    { unfold water_in, seas, dS, dT, dP, upto. split; [lra|]. split; [lra|]. exact Hsample. }
    assert (Hstart : starts_at sh casts (ravel sh h0) pp init_flat).
    { unfold starts_at, init_flat. unfold init_at in Hinit. destruct p_init as [q|q|]; [exact Hinit| |exact Hinit].
      destruct Hinit as (E1 & E2 & E3). split; [exact E1|]. unfold wf in E2. rewrite len_casts, <- E1. split; [exact E2|]. exact E3. }
    assert (Hbelow : below_mixed_layer casts (ravel sh h0) pp ml_opt).
    { unfold below_mixed_layer, ml_opt. unfold ml_above in Hml. destruct p_ml as [|a|]; [exact I| |exact I].
      destruct Hml as (E1 & E2 & E3). unfold wf in E1. rewrite len_casts, <- E2. split; [exact E1|]. exact E3. }
    assert (Hcast : in_cast casts (ravel sh h0) pp).
    { destruct Hpp as (k & K & ss & ts & ps & A & B & C). exists (fst (fst (c h0))), (snd (fst (c h0))), (snd (c h0)), k, K, ss, ts, ps.
      split; [rewrite nth_casts by exact Hh0; destruct (c h0) as [[? ?] ?]; reflexivity|]. auto. }
    destruct (omega_exact (seas zp) f (at_depth zp v) g vs vt (ppc_named junk0 ppc) rel (interp_two_named itp) spsolve lsqr fuel loop_fuel junk junk_p junk_i
      sh casts edges gd gp dist distperp (ravel sh h0) pp o tol init_flat ml_opt (g_on _ _ _ Hf) (gs_on _ _ _ _ _ Hg) (gs_nan _ _ _ _ _ Hg) HwD Hi Hit Hsp Hls Ho Htol)
      as (x & d & its & Eo & Hdn & Hsurf & Hsteps & (sp & tp & Hxp)); trivial.
    { intros y Hy. destruct (in_casts y Hy) as (A & B & _ & C). auto. }
    { apply Forall_forall. intros y Hy. apply (in_casts y Hy). }
    { rewrite len_casts. exact Hlf. }
    { intros k. rewrite len_casts. apply Hjunk. }
    { rewrite len_casts. exact Hjp. }
    destruct (surface_at x Hsurf) as [Lx Hx].
    pose proof (omega_run _ _ _ _ _ _ _ _ _ _ _ _ _ _ _ _ _ _ _ _ _ _ _ Eo) as (ev & x0 & pin_p & edges' & ip & ix & Ev & Ege & Ecsr & Hbeg & Hrun).
    replace (@lit xr _ 345 (-1)) with (Fin 34.5) in Ev by (cbn [lit xrNum]; f_equal; unfold Rlit; cbn; lra).
    replace (@lit xr _ 3 0) with (Fin 3) in Ev by (cbn [lit xrNum]; f_equal; unfold Rlit; cbn; lra).
    replace (@lit xr _ 1000 0) with (Fin 1000) in Ev by (cbn [lit xrNum]; f_equal; unfold Rlit; cbn; lra).
    rewrite (g_on _ _ _ Hf) in Ev by apply HwD. injection Ev as <-.
    assert (Etol : P_omega.tolerance o (Fin (at_depth zp v 34.5 3 1000)) = tolerance).
    { unfold P_omega.tolerance, tolerance. rewrite (sample_named name v zp Hname); [reflexivity|].
      unfold ocean. lra. }
    rewrite Etol in Hrun.
    assert (Eml : ml_of casts ml_opt = ml_list sh p_ml).
    { unfold ml_of, ml_opt, ml_list. destruct p_ml; [|reflexivity|]; rewrite len_casts; reflexivity. }
    rewrite Eml in Hrun.
    assert (Eat : at_pos sh x h0 = (Fin sp, Fin tp, Fin pp)).
    { pose proof (at_pos_nth sh x h0 Lx Hh0) as E. rewrite Hxp in E. injection E as E. symmetry. exact E. }
    assert (Hon : on_cast rel (c h0) (at_pos sh x h0)).
    { destruct (Hx h0 Hh0) as [E|E]; [|exact E]. rewrite Eat in E. discriminate. }
    assert (Epp : pin_p = Fin pp).
    { unfold init_flat in Hbeg. unfold init_at in Hinit. destruct p_init as [q|q|]; cbn [begins] in Hbeg.
      - destruct Hbeg as [-> _]. exact Hinit.
      - destruct Hbeg as (_ & E & _). destruct Hinit as (E1 & _ & E3). unfold at_ in E3. rewrite E1 in E3. congruence.
      - destruct Hbeg. }
    subst pin_p.
    assert (Hx0 : initial_surface rel sh c h0 pp p_init (at_pos sh x0)).
    { unfold initial_surface. unfold init_flat in Hbeg. destruct p_init as [q|q|]; cbn [begins] in Hbeg; [| |exact Hbeg].
      - destruct its as [|r0 its'].
        { rewrite <- (run_none _ _ _ _ _ _ _ _ Hrun eq_refl). split; [exact Hon|rewrite Eat; reflexivity]. }
        inversion Hsteps as [|? ? Hs0 _]; subst. pose proof (run_first _ _ _ _ _ _ _ _ Hrun r0 eq_refl) as Ein.
        destruct (run_pin _ _ _ _ _ _ _ _ Hrun 0%nat r0 eq_refl) as (s' & t' & Ep'). destruct (st_pin _ _ _ _ _ _ _ _ _ _ _ Hs0) as [E1 E2].
        rewrite Ein in E2. assert (Eb : at_pos sh x0 h0 = (s', t', Fin pp)).
        { unfold at_pos. apply nth_error_nth. congruence. }
        rewrite Eb. split; [|reflexivity]. destruct (st_wet _ _ _ _ _ _ _ _ _ _ _ Hs0) as [_ Hsw].
        destruct (Hsw (ravel sh h0) (s', t', Fin pp) (c h0)) as [E|E]; [congruence|apply nth_casts; exact Hh0|discriminate|exact E].
      - destruct Hbeg as (Esh & _ & HB). intros h p0 V Hp0. unfold at_ in Hp0. rewrite Esh in Hp0.
        destruct (c h) as [[Sc Tc] Pc] eqn:Ec. destruct (Hc h V) as (Ha & _ & Hx' & _). rewrite Ec in Ha, Hx'.
        destruct (HB (ravel sh h) p0 Sc Tc Pc Hp0) as (s' & t' & E1 & E2); [rewrite nth_casts, Ec by exact V; reflexivity|].
        assert (Eb : at_pos sh x0 h = (s', t', if isnan s' then nan else p0)) by (unfold at_pos; apply nth_error_nth; exact E2).
        rewrite Eb. destruct Hit as [Hi1 Hi2]. split.
        + destruct (Hi1 Sc Tc Pc p0 Ha Hx') as (s'' & t'' & E3 & HH). rewrite E1 in E3. injection E3 as <- <-.
          destruct HH as [HH|HH]; [left; rewrite HH; reflexivity|]. destruct (isnan s'); [left; reflexivity|right]. split; [exact HH|reflexivity].
        + intros r -> (k & K & ss & ts & ps & A & B & C). cbn [fst snd] in A. destruct (Hi2 Sc Tc Pc k K ss ts ps r A Hx' B C) as (s'' & t'' & E3 & HH).
          rewrite E1 in E3. injection E3 as <- <-. rewrite HH.
          destruct (Hi1 Sc Tc Pc (Fin r) Ha Hx') as (s3 & t3 & E3 & HH'). rewrite E1 in E3. injection E3 as <- <-.
          destruct HH' as [HH'|HH']; [congruence|]. split; [exact HH'|reflexivity]. }
    destruct (outputs S T vd s1 n s2 x) as (sx & tx & Exr & s & t & p & Os & Ot & Op & Hholds); try exact Lx; try apply Hw.
    exists s, t, p, x, d, its, x0. split.
    { destruct (columns_ok S T P vd s1 n s2 c Hw) as (stp & Estp & Ecol). destruct pin_flat as (pt & Epin & Hpt).
      assert (Hlen : length edges <> 0%nat) by (destruct edges; [congruence|discriminate]).
      destruct (gdiv_distances _ _ _ _ _ Hp Hd Hlen) as (dr & Edr & _).
      { eapply Forall_impl; [|exact Hd0]. intros. cbn in *. lra. }
      unfold omega_surf_pub. cbn [w_interp w_vert_dim w_p_ml w_eos w_rho_c w_grav w_options].
      rewrite Ep, Et. cbn [bind]. rewrite Exr. cbn [bind]. rewrite Epin. cbn [bind]. rewrite Estp. cbn [bind].
      rewrite Ee. cbn [bind]. rewrite Ecol. cbn [bind shape elems build fst snd].
      assert (Em : match sh with [] => Err TypeError | _ :: _ => Ok tt end = Ok tt) by (destruct sh; [congruence|reflexivity]).
      rewrite Em. cbn [bind].
      assert (Er : match pt with CTuple t0 | CList t0 => ravel_multi_index t0 sh | CNone => Err TypeError end = Ok (ravel sh h0)).
      { destruct Hpt as [-> | ->]; apply ravel_multi; exact Hh0. }
      rewrite Er. cbn [bind]. rewrite Egrid. cbn [key bind]. rewrite Edr. cbn [bind].
      assert (El : match p_ml with
        | MNone => Ok None | MArray a => Ok (Some (elems a))
        | MDict grav0 rho_c0 d0 r b i v0 => let '(s0, t0, p0) := stp in
            let! ml := mixed_layer (flat_casts (length casts) n s0) (flat_casts (length casts) n t0) (flat_casts (length casts) n p0)
              (AFun (F1 f)) grav0 rho_c0 (or_default d0 (lit 3 (-2))) (or_default r (lit 100 0)) (or_default b 1%Z) (or_default i "linear"%string) (or_default v0 (VInt (-1))) in Ok (Some (elems ml)) end = Ok ml_opt).
      { unfold ml_opt. unfold ml_above in Hml. destruct p_ml; [reflexivity|reflexivity|destruct Hml]. }
      cbn [fst snd] in *. rewrite El. cbn [bind].
      fold init_flat. change (one_value (F1 f)) with f. change (two_values (Some (F2 g))) with g. rewrite Eo. cbn [bind]. rewrite Os, Ot, Op. reflexivity. }
    split; [exact Hholds|]. split; [exact Hx|]. split; [exact Hon|]. split; [rewrite Eat; reflexivity|]. split; [exact Hrun|]. split; [exact Hx0|].
    split; [exact Hdn|]. exists vs, vt. split; [exact (gs_diff _ _ _ _ _ Hg)|]. split; [exact Hsteps|].
    intros d' ->. destruct (omega_diagnostics _ _ _ _ _ _ _ _ _ _ _ _ _ _ _ _ _ _ _ _ _ _ _ Eo) as (x0' & _ & HD).
    assert (Hod : o_diags o = true) by (destruct (o_diags o); [reflexivity|destruct Hdn as [_ E]; specialize (E eq_refl); discriminate]).
    assert (Hits : its <> []) by (apply (run_some _ _ _ _ _ _ _ _ Hrun); apply Hmax; exact Hod).
    assert (Hlast : exists r, nth_error its (length its - 1) = Some r).
    { destruct (nth_error its (length its - 1)) as [r|] eqn:E; [eauto|]. apply nth_error_None in E. destruct its; [congruence|]. cbn [length] in E. lia. }
    destruct Hlast as (r & Er). pose proof (run_result _ _ _ _ _ _ _ _ Hrun r Er) as Ex.
    destruct (d_errors _ _ _ _ HD _ r Er) as (rms & mav & E1 & E2 & E3).
    assert (Hcl : Forall (clean (seas zp)) x).
    { rewrite Ex. rewrite Forall_forall in Hsteps. eapply out_clean. apply Hsteps. eapply nth_error_In. exact Er. }
    destruct (norms_surface (seas zp) g vs vt sh grid edges dist distperp x (gs_on _ _ _ _ _ Hg) (gs_nan _ _ _ _ _ Hg) Hgeo Lx Hcl) as (r' & m' & En & HN).
    rewrite <- Ex in E1. rewrite Egrid in En. rewrite En in E1. injection E1 as <- <-.
    replace (Datatypes.S (length its - 1)) with (length its) in * by (destruct its; [congruence|cbn [length]; lia]).
    exists r', m'. auto.
  Qed.
End Named.
