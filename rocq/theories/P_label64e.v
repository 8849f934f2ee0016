(** * The Veronis density in binary64: the error of the trapezoidal rule, for the named equations of state *)
From Coq Require Import String ZArith Reals Bool Lia Lra Psatz SpecFloat List.
From Coquelicot Require Import Coquelicot.
From Verif Require Import Num XR SF Res Arr M_eos_base M_jmd95 M_jmdfwg06 M_gsw M_eostools M_label S_interp S_eos S_float S_domain S_named S_traj S_vert64 S_surfaces S_entry64 S_label S_label64
  P_floaterr P_eos P_eosx P_eosocean P_eosfloat5 P_jet P_jeteos P_label64d.
#[local] Existing Instance fnNum.
#[local] Existing Instance jetNum.
Import ListNotations.
Local Open Scope R_scope.

(** y is twice differentiable on X, with second derivatives at most a *)
Definition bent (X : R -> Prop) (y : R -> R) (a : R) : Prop :=
  exists F F1 F2 : R -> R, forall x, X x -> F x = y x /\ is_derive F x (F1 x) /\ is_derive F1 x (F2 x) /\ Rabs (F2 x) <= a.

Lemma zp_range (grav rho_c : option f64) zp pm : coordinate64 grav rho_c zp pm -> 0 < zp <= 3 / 2 /\ pm * zp <= 10000.
Proof. unfold coordinate64. destruct grav, rho_c; intros H; [lra| | |]; destruct H as [-> ->]; lra. Qed.

Lemma bend_named name rho smin C (grav rho_c : option f64) zp pm vs vt : named_eos name rho -> bend64 name smin C -> coordinate64 grav rho_c zp pm ->
  partials (seas zp) (at_depth zp rho) vs vt ->
  forall (X : R -> Prop) L a b a' b', (exists x, X x) -> / 100 <= L -> Rabs b <= L -> Rabs b' <= L ->
  (forall x, X x -> (smin <= a + b * x <= 42 /\ 0 < a + b * x) /\ -3 <= a' + b' * x <= 40 /\ 0 <= x <= pm) ->
  exists A B, A + B <= C /\ 0 <= A /\ 0 <= B
    /\ bent X (fun x => vs (a + b * x) (a' + b' * x) x) (A * (L * L)) /\ bent X (fun x => vt (a + b * x) (a' + b' * x) x) (B * (L * L)).
Proof.
  intros Hn HB Hco Hp X L a b a' b' Hne HL Hb Hb' HX. destruct (zp_range _ _ _ _ Hco) as [Hz Hpz].
  assert (L0 : 0 <= L) by lra.
  assert (S0 : 0 <= smin) by (inversion HB; lra).
  assert (HXp : forall x, X x -> 0 <= x * zp <= 10000).
  { intros x Hx. destruct (HX x Hx) as (_ & _ & H1 & H2). split; [apply Rmult_le_pos; lra|].
    apply Rle_trans with (pm * zp); [apply Rmult_le_compat_r; lra|exact Hpz]. }
  assert (HO : forall x, X x -> ocean (a + b * x) (a' + b' * x) (0 + zp * x)).
  { intros x Hx. destruct (HX x Hx) as ((H1 & H2) & H3 & _). pose proof (HXp x Hx). repeat split; lra. }
  assert (HD : forall x, X x -> diff_s rho (a + b * x) (a' + b' * x) (0 + zp * x) (vs (a + b * x) (a' + b' * x) x)
                             /\ diff_t rho (a + b * x) (a' + b' * x) (0 + zp * x) (vt (a + b * x) (a' + b' * x) x)).
  { intros x Hx. destruct (HX x Hx) as ((H1 & H2) & H3 & _). pose proof (HXp x Hx).
    replace (0 + zp * x) with (x * zp) by ring. apply (Hp (a + b * x) (a' + b' * x) x); cbn [seas dS dT dP]; unfold upto; lra. }
  assert (Jt := jr_t X L a' b' Hb' (fun x Hx => proj1 (proj2 (HX x Hx)))).
  assert (Jp := jr_p X L zp HL ltac:(lra) HXp).
  assert (Fin : forall J n k (fn : res ((R -> R) * (R -> R))) (fr : R -> R -> R -> res (R * R)), (0 < 10 ^ k)%Z -> bends J n k = true -> C = IZR n / IZR (10 ^ k) ->
     (forall x, X x -> rrel (jrel2 X L x) J fn (fr (a + b * x) (a' + b' * x) (0 + zp * x))) ->
     (forall x, X x -> exists rs rt, fr (a + b * x) (a' + b' * x) (0 + zp * x) = Ok (rs, rt)
        /\ diff_s rho (a + b * x) (a' + b' * x) (0 + zp * x) rs /\ diff_t rho (a + b * x) (a' + b' * x) (0 + zp * x) rt) ->
     exists A B, A + B <= C /\ 0 <= A /\ 0 <= B
       /\ bent X (fun x => vs (a + b * x) (a' + b' * x) x) (A * (L * L)) /\ bent X (fun x => vt (a + b * x) (a' + b' * x) x) (B * (L * L))).
  { intros J n k fn fr Hk HJ EC HR HV.
    destruct (bends_ok X L J n k fn (fun x => fr (a + b * x) (a' + b' * x) (0 + zp * x)) (fun x => vs (a + b * x) (a' + b' * x) x) (fun x => vt (a + b * x) (a' + b' * x) x)
      L0 Hne Hk HJ HR) as (F & F1 & F2 & G & G1 & G2 & A & B & H1 & H2 & H3 & H4).
    - intros x Hx. destruct (HV x Hx) as (rs & rt & E & D1 & D2). destruct (HD x Hx) as [D3 D4]. rewrite E.
      rewrite (uniqueness_limite _ _ _ _ D1 D3), (uniqueness_limite _ _ _ _ D2 D4). reflexivity.
    - exists A, B. rewrite EC. split; [exact H1|]. split; [exact H2|]. split; [exact H3|]. split.
      + exists F, F1, F2. intros x Hx. destruct (H4 x Hx) as (K1 & K2 & K3 & K4 & K5 & K6 & K7 & K8). split; [exact K1|]. split; [exact K3|]. split; [exact K4|exact K7].
      + exists G, G1, G2. intros x Hx. destruct (H4 x Hx) as (K1 & K2 & K3 & K4 & K5 & K6 & K7 & K8). split; [exact K2|]. split; [exact K5|]. split; [exact K6|exact K8]. }
  assert (Jin : forall z, least z smin -> forall x, X x -> jrel X L x (j_s z) (fun x => a + b * x) (a + b * x) /\ jrel X L x j_t (fun x => a' + b' * x) (a' + b' * x)
     /\ jrel X L x j_p (fun x => 0 + zp * x) (0 + zp * x)).
  { intros z Hz' x Hx. split; [|split]; (split; [|reflexivity]); [|exact Jt|exact Jp].
    apply (jr_s X L z smin); [exact Hz'|exact Hb|]. intros x' Hx'. exact (proj1 (proj1 (HX x' Hx'))). }
  assert (jmR : forall z, least z smin -> forall x, X x -> rrel (jrel2 X L x) (jmd95_rho_s_t j_dv (j_s z) j_t j_p)
     (jmd95_rho_s_t f_dv (fun x => a + b * x) (fun x => a' + b' * x) (fun x => 0 + zp * x)) (jmd95_rho_s_t sdiv (a + b * x) (a' + b' * x) (0 + zp * x))).
  { intros z Hz' x Hx. destruct (Jin z Hz' x Hx) as (A & B & D). apply jmd95_rho_s_t_jrel; auto. }
  assert (jfR : forall z, least z smin -> forall x, X x -> rrel (jrel2 X L x) (jmdfwg06_rho_s_t j_dv (j_s z) j_t j_p)
     (jmdfwg06_rho_s_t f_dv (fun x => a + b * x) (fun x => a' + b' * x) (fun x => 0 + zp * x)) (jmdfwg06_rho_s_t sdiv (a + b * x) (a' + b' * x) (0 + zp * x))).
  { intros z Hz' x Hx. destruct (Jin z Hz' x Hx) as (A & B & D). apply jmdfwg06_rho_s_t_jrel; auto. }
  assert (gsR : forall z, least z smin -> forall x, X x -> rrel (jrel2 X L x) (gsw_specvol_s_t j_dv (j_s z) j_t j_p)
     (gsw_specvol_s_t f_dv (fun x => a + b * x) (fun x => a' + b' * x) (fun x => 0 + zp * x)) (gsw_specvol_s_t sdiv (a + b * x) (a' + b' * x) (0 + zp * x))).
  { intros z Hz' x Hx. destruct (Jin z Hz' x Hx) as (A & B & D). destruct (HX x Hx) as ((_ & P) & _). apply gsw_specvol_s_t_jrel; auto; lra. }
  destruct Hn.
  - assert (V : forall x, X x -> exists rs rt, gsw_specvol_s_t sdiv (a + b * x) (a' + b' * x) (0 + zp * x) = Ok (rs, rt)
        /\ diff_s teos_v (a + b * x) (a' + b' * x) (0 + zp * x) rs /\ diff_t teos_v (a + b * x) (a' + b' * x) (0 + zp * x) rt).
    { intros x Hx. destruct teos_all as (h & h0 & hs & ht & hp & hd). destruct (hd sdiv (or_introl eq_refl) (a + b * x) (a' + b' * x) (0 + zp * x)) as (_ & E2 & _).
      eexists _, _. split; [exact E2|]. destruct (HX x Hx) as ((_ & P) & _). split.
      - unfold diff_s. eapply lim_ext; [intro; apply h0|]. apply hs; [lia|exact P].
      - unfold diff_t. eapply lim_ext; [intro; apply h0|]. apply ht. }
    inversion HB; subst.
    + refine (Fin _ 34%Z 8%Z _ (gsw_specvol_s_t sdiv) eq_refl ck_gs_0 _ (gsR _ least0) V); unfold dec; simpl; lra.
    + refine (Fin _ 72%Z 9%Z _ (gsw_specvol_s_t sdiv) eq_refl ck_gs_30 _ (gsR _ (least_n 30)) V); unfold dec; simpl; lra.
  - assert (V : forall x, X x -> exists rs rt, jmd95_rho_s_t sdiv (a + b * x) (a' + b' * x) (0 + zp * x) = Ok (rs, rt)
        /\ diff_s jm_rho (a + b * x) (a' + b' * x) (0 + zp * x) rs /\ diff_t jm_rho (a + b * x) (a' + b' * x) (0 + zp * x) rt).
    { intros x Hx. destruct (jm_all sdiv (or_introl eq_refl) _ _ _ (jm_ocean_dom _ _ _ (HO x Hx))) as (_ & _ & E3). apply E3. exact (proj2 (proj1 (HX x Hx))). }
    inversion HB; subst.
    + refine (Fin _ 376%Z 0%Z _ (jmd95_rho_s_t sdiv) eq_refl ck_jm_0 _ (jmR _ least_milli) V); simpl; lra.
    + refine (Fin _ 57%Z 3%Z _ (jmd95_rho_s_t sdiv) eq_refl ck_jm_1 _ (jmR _ (least_n 1)) V); unfold dec; simpl; lra.
    + refine (Fin _ 36%Z 3%Z _ (jmd95_rho_s_t sdiv) eq_refl ck_jm_30 _ (jmR _ (least_n 30)) V); unfold dec; simpl; lra.
  - assert (V : forall x, X x -> exists rs rt, jmdfwg06_rho_s_t sdiv (a + b * x) (a' + b' * x) (0 + zp * x) = Ok (rs, rt)
        /\ diff_s jf_rho (a + b * x) (a' + b' * x) (0 + zp * x) rs /\ diff_t jf_rho (a + b * x) (a' + b' * x) (0 + zp * x) rt).
    { intros x Hx. destruct (jf_all sdiv (or_introl eq_refl) _ _ _ (jf_ocean_dom _ _ _ (HO x Hx))) as (_ & _ & E3). apply E3. exact (proj2 (proj1 (HX x Hx))). }
    inversion HB; subst.
    + refine (Fin _ 290%Z 0%Z _ (jmdfwg06_rho_s_t sdiv) eq_refl ck_jf_0 _ (jfR _ least_milli) V); simpl; lra.
    + refine (Fin _ 72%Z 3%Z _ (jmdfwg06_rho_s_t sdiv) eq_refl ck_jf_1 _ (jfR _ (least_n 1)) V); unfold dec; simpl; lra.
    + refine (Fin _ 53%Z 3%Z _ (jmdfwg06_rho_s_t sdiv) eq_refl ck_jf_30 _ (jfR _ (least_n 30)) V); unfold dec; simpl; lra.
Qed.

(** ** gluing: a function that is smooth on each closed piece has a continuous extension *)
Definition clamp (a b x : R) : R := Rmax a (Rmin x b).
Lemma clamp_in a b x : a <= b -> a <= clamp a b x <= b.
Proof. intros H. unfold clamp. split; [apply Rmax_l|]. apply Rmax_lub; [exact H|apply Rmin_r]. Qed.
Lemma clamp_id a b x : a <= x <= b -> clamp a b x = x.
Proof. intros H. unfold clamp. rewrite Rmin_left, Rmax_right; lra. Qed.
Lemma clamp_lo a b x : a <= b -> x <= a -> clamp a b x = a.
Proof. intros H K. unfold clamp. rewrite Rmin_left, Rmax_left; lra. Qed.
Lemma clamp_hi a b x : a <= b -> b <= x -> clamp a b x = b.
Proof. intros H K. unfold clamp. rewrite Rmin_right, Rmax_right; lra. Qed.
Lemma clamp_lip a b x y : Rabs (clamp a b x - clamp a b y) <= Rabs (x - y).
Proof. unfold clamp, Rmax, Rmin. repeat destruct (Rle_dec _ _); unfold Rabs; repeat destruct (Rcase_abs _); lra. Qed.
Lemma clamp_cont a b x : continuity_pt (clamp a b) x.
Proof.
  intros e He. exists e. split; [exact He|]. intros y [_ Hy]. cbn in *. unfold R_dist in *. eapply Rle_lt_trans; [apply clamp_lip|exact Hy].
Qed.

Lemma glue (ps : nat -> R) h n : (forall i, (i < n)%nat -> ps i < ps (S i)) ->
  (forall i, (i < n)%nat -> exists q, forall x, ps i <= x <= ps (S i) -> q x = h x /\ continuity_pt q x) ->
  exists f, (forall x, continuity_pt f x) /\ (forall x, ps 0%nat <= x <= ps n -> f x = h x) /\ (forall x, ps n <= x -> f x = h (ps n)).
Proof.
  induction n as [|n IH]; intros Hinc Hq.
  - exists (fun _ => h (ps 0%nat)). split; [intros x; apply continuity_pt_const; intros u v; reflexivity|]. split; [|reflexivity].
    intros x Hx. f_equal. lra.
  - destruct IH as (f & Cf & Ef & Tf); [intros; apply Hinc; lia|intros; apply Hq; lia|]. destruct (Hq n ltac:(lia)) as (q & Hqq). pose proof (Hinc n ltac:(lia)) as I.
    exists (fun x => f x + (q (clamp (ps n) (ps (S n)) x) - q (ps n))).
    assert (Qn : q (ps n) = h (ps n)) by (apply Hqq; lra). assert (Qs : q (ps (S n)) = h (ps (S n))) by (apply Hqq; lra).
    split; [|split].
    + intros x. apply (continuity_pt_plus f (fun x => q (clamp (ps n) (ps (S n)) x) - q (ps n))); [apply Cf|].
      apply (continuity_pt_minus (fun x => q (clamp (ps n) (ps (S n)) x)) (fun _ => q (ps n))); [|apply continuity_pt_const; intros u v; reflexivity].
      apply (continuity_pt_comp (clamp (ps n) (ps (S n))) q); [apply clamp_cont|]. apply Hqq. apply clamp_in. lra.
    + intros x Hx. destruct (Rle_dec x (ps n)) as [Hl|Hl].
      * rewrite clamp_lo, Ef by lra. lra.
      * rewrite clamp_id, Tf by lra. destruct (Hqq x ltac:(lra)) as [-> _]. lra.
    + intros x Hx. rewrite clamp_hi, Tf by lra. lra.
Qed.

Section Explicit.
  Variables (name : string) (rho : R -> R -> R -> R) (s0 d B c r smin C : R) (grav rho_c : option f64) (zp pm : R) (vs vt : R -> R -> R -> R).
  Hypotheses (Hn : named_eos name rho) (HL : limits64 name s0 (dec 1 (-13)) d B) (Hl : label64 name c r) (Hb : bend64 name smin C)
    (Hco : coordinate64 grav rho_c zp pm) (Hp : partials (seas zp) (at_depth zp rho) vs vt).
  Variables (Sa Ta Pa : list f64) (S' T' P' : list xr) (K : nat) (ss ts ps : nat -> R) (W L : R).
  Hypothesis HC : cast64 (sea s0 pm) Sa Ta Pa S' T' P' K ss ts ps W.
  Hypotheses (Hmin : forall i, (i < K)%nat -> smin <= ss i) (Hst : steep K ss ts ps L).
  Variables (gS gT : R -> R).
  Hypotheses (HgS : linear_fun K ps ss gS) (HgT : linear_fun K ps ts gT).

  Lemma inc i : (S i < K)%nat -> ps i < ps (S i).
  Proof. intros Hi. pose proof (c64_apart _ _ _ _ _ _ _ _ _ _ _ _ HC i Hi). lra. Qed.

  (** the interpolants on closed pieces *)
  Lemma on_piece (g ys : _) : linear_fun K ps ys g -> forall i x, (S i < K)%nat -> ps i <= x <= ps (S i) ->
    g x = (ys i - ps i * secant ps ys i) + secant ps ys i * x.
  Proof.
    intros Hg i x Hi Hx. destruct (Req_dec x (ps i)) as [E|E].
    - destruct i as [|j].
      + rewrite (Hg x 0%nat); [ring|]. repeat split; [lia|lia|lra|lra|now left].
      + pose proof (inc j ltac:(lia)) as I. rewrite (Hg x j); [|repeat split; [lia|lia|lra|lra|right; lra]].
        rewrite E. unfold secant. field. split; lra || (pose proof (inc (S j) Hi); lra).
    - rewrite (Hg x i); [ring|]. repeat split; [lia|lia|lra|lra|right; lra].
  Qed.

  Lemma slope_le ys i : (S i < K)%nat -> Rabs (ys (S i) - ys i) <= L * (ps (S i) - ps i) -> Rabs (secant ps ys i) <= L.
  Proof.
    intros Hi H. pose proof (inc i Hi) as I. unfold secant, Rdiv. rewrite Rabs_mult, (Rabs_pos_eq (/ _)) by (left; apply Rinv_0_lt_compat; lra).
    apply Rdiv_le_r; [lra|exact H].
  Qed.
  (** between the values at the ends *)
  Lemma line_between ys i x lo hi : (S i < K)%nat -> ps i <= x <= ps (S i) -> lo <= ys i <= hi -> lo <= ys (S i) <= hi ->
    lo <= (ys i - ps i * secant ps ys i) + secant ps ys i * x <= hi.
  Proof.
    intros Hi Hx H1 H2. pose proof (inc i Hi) as I. set (w := (x - ps i) / (ps (S i) - ps i)).
    assert (W0 : 0 <= w <= 1).
    { unfold w. split; [apply Rmult_le_pos; [lra|left; apply Rinv_0_lt_compat; lra]|]. apply Rdiv_le_r; lra. }
    replace ((ys i - ps i * secant ps ys i) + secant ps ys i * x) with ((1 - w) * ys i + w * ys (S i)) by (unfold w, secant; field; lra). nra.
  Qed.
  Lemma line_pos ys i x : (S i < K)%nat -> ps i <= x <= ps (S i) -> 0 < ys i -> 0 < ys (S i) ->
    0 < (ys i - ps i * secant ps ys i) + secant ps ys i * x.
  Proof.
    intros Hi Hx H1 H2. pose proof (line_between ys i x (Rmin (ys i) (ys (S i))) (Rmax (ys i) (ys (S i))) Hi Hx) as Q.
    assert (0 < Rmin (ys i) (ys (S i))) by (now apply Rmin_glb_lt).
    pose proof (Rmin_l (ys i) (ys (S i))). pose proof (Rmin_r (ys i) (ys (S i))). pose proof (Rmax_l (ys i) (ys (S i))). pose proof (Rmax_r (ys i) (ys (S i))). lra.
  Qed.

  Lemma pieces_bent i : (S i < K)%nat -> exists A B, A + B <= C /\ 0 <= A /\ 0 <= B
    /\ bent (fun x => ps i <= x <= ps (S i)) (fun x => vs (gS x) (gT x) x) (A * (L * L))
    /\ bent (fun x => ps i <= x <= ps (S i)) (fun x => vt (gS x) (gT x) x) (B * (L * L)).
  Proof.
    intros Hi. pose proof (inc i Hi) as I. destruct Hst as [HL1 Hs]. destruct (Hs i Hi) as [Hs1 Hs2].
    destruct (c64_water _ _ _ _ _ _ _ _ _ _ _ _ HC i ltac:(lia)) as (U1 & U2 & U3 & U4).
    destruct (c64_water _ _ _ _ _ _ _ _ _ _ _ _ HC (S i) Hi) as (V1 & V2 & V3 & V4).
    pose proof (Hmin i ltac:(lia)) as M1. pose proof (Hmin (S i) Hi) as M2.
    cbn [sea box dS dT dP] in *. unfold upto in *.
    destruct (bend_named name rho smin C grav rho_c zp pm vs vt Hn Hb Hco Hp (fun x => ps i <= x <= ps (S i)) L
      (ss i - ps i * secant ps ss i) (secant ps ss i) (ts i - ps i * secant ps ts i) (secant ps ts i)) as (A & B' & H1 & H2 & H3 & H4 & H5).
    - exists (ps i). lra.
    - exact HL1.
    - now apply slope_le.
    - now apply slope_le.
    - intros x Hx. split; [split|split].
      + apply line_between; trivial; lra.
      + now apply line_pos.
      + apply line_between; trivial; lra.
      + lra.
    - exists A, B'. split; [exact H1|]. split; [exact H2|]. split; [exact H3|]. split.
      + destruct H4 as (F & F1 & F2 & H). exists F, F1, F2. intros x Hx. destruct (H x Hx) as (E & R1). split; [|exact R1].
        rewrite (on_piece gS ss HgS i x Hi Hx), (on_piece gT ts HgT i x Hi Hx). exact E.
      + destruct H5 as (F & F1 & F2 & H). exists F, F1, F2. intros x Hx. destruct (H x Hx) as (E & R1). split; [|exact R1].
        rewrite (on_piece gS ss HgS i x Hi Hx), (on_piece gT ts HgT i x Hi Hx). exact E.
  Qed.

  Lemma two_levels : (1 < K)%nat. Proof. exact (pf_two _ _ _ _ _ _ _ (c64_profile _ _ _ _ _ _ _ _ _ _ _ _ HC)). Qed.

  Lemma bent_cont X y A : bent X y A -> exists q, forall x, X x -> q x = y x /\ continuity_pt q x.
  Proof.
    intros (F & F1 & F2 & H). exists F. intros x Hx. destruct (H x Hx) as (E & D & _). split; [exact E|].
    apply continuity_pt_filterlim. apply (ex_derive_continuous (V := R_NormedModule)). exists (F1 x). exact D.
  Qed.

  (** the derivative of an interpolant inside a piece *)
  Lemma slope_in (g ys : _) : linear_fun K ps ys g -> forall i x, (S i < K)%nat -> ps i < x < ps (S i) -> Derive g x = secant ps ys i.
  Proof.
    intros Hg i x Hi Hx. apply is_derive_unique.
    assert (Loc : locally x (fun z => ps i <= z <= ps (Datatypes.S i))).
    { assert (He : 0 < Rmin (x - ps i) (ps (Datatypes.S i) - x)) by (apply Rmin_case; lra).
      exists (mkposreal _ He). intros z Hz. unfold ball in Hz. cbn in Hz. unfold AbsRing_ball, abs, minus, plus, opp in Hz. cbn in Hz.
      apply Rabs_def2 in Hz. pose proof (Rmin_l (x - ps i) (ps (Datatypes.S i) - x)). pose proof (Rmin_r (x - ps i) (ps (Datatypes.S i) - x)). lra. }
    apply (is_derive_ext_loc (fun z => (ys i - ps i * secant ps ys i) + secant ps ys i * z)).
    - revert Loc. apply filter_imp. intros z Hz. symmetry. now apply on_piece.
    - auto_derive; [trivial|ring].
  Qed.

  Lemma smooth_any f g : (forall x, in_range K ps x -> f x = vs (gS x) (gT x) x) -> (forall x, in_range K ps x -> g x = vt (gS x) (gT x) x) ->
    smooth_pieces K ps (gradient f g gS gT) (C * L ^ 3).
  Proof.
    intros Hf Hg i Hi. destruct (pieces_bent i Hi) as (A & B' & H1 & H2 & H3 & (F & F1 & F2 & HF) & (G & G1 & G2 & HG)).
    destruct Hst as [HL1 Hs]. destruct (Hs i Hi) as [Hs1 Hs2]. assert (Sl := slope_le ss i Hi Hs1). assert (Tl := slope_le ts i Hi Hs2).
    set (a := secant ps ss i) in *. set (b := secant ps ts i) in *.
    exists (fun x => a * F x + b * G x), (fun x => a * F1 x + b * G1 x), (fun x => a * F2 x + b * G2 x).
    intros x Hx. destruct (HF x Hx) as (E1 & D1 & D2 & D3). destruct (HG x Hx) as (E2 & D4 & D5 & D6).
    split; [apply (d_plus (fun x => a * F x) (fun x => b * G x)); now apply d_scal|].
    split; [apply (d_plus (fun x => a * F1 x) (fun x => b * G1 x)); now apply d_scal|]. split.
    - eapply Rle_trans; [apply Rabs_triang|]. rewrite !Rabs_mult.
      assert (L2 : 0 <= L * L) by nra.
      assert (Q1 : Rabs a * Rabs (F2 x) <= L * (A * (L * L))) by (apply Rmult_le_compat; try apply Rabs_pos; assumption).
      assert (Q2 : Rabs b * Rabs (G2 x) <= L * (B' * (L * L))) by (apply Rmult_le_compat; try apply Rabs_pos; assumption).
      assert (L3 : 0 <= L * (L * L)) by (apply Rmult_le_pos; lra).
      assert (Q3 : (A + B') * (L * (L * L)) <= C * (L * (L * L))) by (apply Rmult_le_compat_r; lra).
      replace (C * L ^ 3) with (C * (L * (L * L))) by ring. lra.
    - intros Hx'. unfold gradient. rewrite (slope_in gS ss HgS i x Hi Hx'), (slope_in gT ts HgT i x Hi Hx'). fold a b.
      assert (IR : in_range K ps x).
      { unfold in_range. assert (Hle : forall j, (j < K)%nat -> forall k, (k <= j)%nat -> ps k <= ps j).
        { induction j as [|j IHj]; intros Hj k Hk; [replace k with 0%nat by lia; lra|].
          destruct (Nat.eq_dec k (S j)) as [->|]; [lra|]. pose proof (inc j Hj). specialize (IHj ltac:(lia) k ltac:(lia)). lra. }
        pose proof (Hle i ltac:(lia) 0%nat ltac:(lia)). pose proof (Hle (K - 1)%nat ltac:(pose proof two_levels; lia) (S i) ltac:(lia)). lra. }
      rewrite (Hf x IR), (Hg x IR), E1, E2. ring.
  Qed.

  Lemma veronis64_explicit junk (p0 p1 p_ref b dp : f64) : finite64 p0 -> finite64 p1 -> finite64 p_ref -> finite64 b -> finite64 dp ->
    in_range K ps (fval p0) -> in_range K ps (fval p1) -> 0 <= fval p_ref <= pm -> Rabs (fval b) <= 10 ^ 6 -> / 1000 <= fval dp <= 5000 ->
    exists v I, veronis junk p1 Sa Ta Pa (Some p0) p_ref b dp "linear" (AStr name) grav rho_c = Ok v /\ finite64 v
      /\ is_RInt (fun x => vs (gS x) (gT x) x * Derive gS x + vt (gS x) (gT x) x * Derive gT x) (fval p0) (fval p1) I
      /\ Rabs (fval v - (at_depth zp rho (gS (fval p0)) (gT (fval p0)) (fval p_ref) + fval b * I))
           <= Rabs (fval b) * (C * L ^ 3 * (fval dp * (1 + powerRZ 2 (-20))) ^ 2 / 12 * (Rabs (fval p1 - fval p0) + 2 * W)) + d
              + Rabs (fval b) * ((variation K ss ts + / 100) * (c + (INR K + 30 + 15000 / fval dp) * r)).
  Proof.
    intros F0 F1 Fr Fb Fdp H0 H1 Hr Hbb Hdp. pose proof two_levels as K2.
    destruct (glue ps (fun x => vs (gS x) (gT x) x) (K - 1)) as (f & Cf & Ef & _).
    { intros i Hi. apply inc. lia. }
    { intros i Hi. destruct (pieces_bent i ltac:(lia)) as (A & B' & _ & _ & _ & H & _). exact (bent_cont _ _ _ H). }
    destruct (glue ps (fun x => vt (gS x) (gT x) x) (K - 1)) as (g & Cg & Eg & _).
    { intros i Hi. apply inc. lia. }
    { intros i Hi. destruct (pieces_bent i ltac:(lia)) as (A & B' & _ & _ & _ & _ & H). exact (bent_cont _ _ _ H). }
    destruct (veronis64 name rho s0 d B c r grav rho_c zp pm vs vt Hn HL Hl Hco Hp Sa Ta Pa S' T' P' K ss ts ps W HC gS gT HgS HgT f g Ef Eg Cf Cg
      (C * L ^ 3) (smooth_any f g Ef Eg) junk p0 p1 p_ref b dp F0 F1 Fr Fb Fdp H0 H1 Hr Hbb Hdp) as (v & I & Ev & Fv & HI & Herr).
    exists v, I. split; [exact Ev|]. split; [exact Fv|]. split; [|exact Herr].
    apply (is_RInt_ext (V := R_NormedModule) (gradient f g gS gT)); [|exact HI].
    intros x [X1 X2]. unfold gradient. assert (IR : in_range K ps x).
    { unfold in_range in *. split.
      - apply Rle_trans with (Rmin (fval p0) (fval p1)); [apply Rmin_glb; lra|lra].
      - apply Rle_trans with (Rmax (fval p0) (fval p1)); [lra|apply Rmax_lub; lra]. }
    rewrite (Ef x IR), (Eg x IR). reflexivity.
  Qed.
End Explicit.
