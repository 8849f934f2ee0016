(** * The omega driver in binary64 *)
From Coq Require Import ZArith String Bool Reals Lra Lia List Permutation SpecFloat Classical_Prop.
From Flocq Require Core BinarySingleNaN.
From Verif Require Import Num XR SF Res Arr ArrLemmas NdLemmas XRlemmas M_graph M_lib M_ppinterp M_traj M_bfs M_ntp M_matsolve M_vertsolve M_omega
  S_lib S_eos S_float S_fzero64 S_interp S_domain S_named S_graph S_traj S_vertsolve S_wet S_ntp S_matsolve S_vert64 S_entry64 S_ntp64 S_omega S_omega64 S_system64 S_run64
  P_float P_fl P_holds P_csr P_bfs P_perim P_domain P_vertsolve P_omega P_case P_omega_exact P_traj64 P_vert64 P_entry64 P_surfdiag64 P_lost64 P_wet64 P_sum64 P_mean64 P_ntpnorms64.
Import ListNotations.
Local Open Scope R_scope.

(** ** numbers *)
Lemma float_valid (x : f64) : float64 x -> valid64 x.
Proof.
  intros [H|H]; [exact (valid_finite x H)|]. destruct x as [s|s| |s m k]; try discriminate H.
  - exists (BinarySingleNaN.B754_infinity s). reflexivity.
  - exists BinarySingleNaN.B754_nan. reflexivity.
Qed.
Lemma valid_float (x : f64) : valid64 x -> float64 x.
Proof. intros H. destruct (valid_cases x H) as [F|[(s & ->)| ->]]; [left; exact F|right; reflexivity|right; reflexivity]. Qed.
Lemma float_sub (x y : f64) : float64 x -> float64 y -> float64 (sub x y).
Proof. intros Hx Hy. apply valid_float. exact (valid_sub x y (float_valid x Hx) (float_valid y Hy)). Qed.
Lemma sub_self (x : f64) : float64 x -> (finite64 (sub x x) /\ fval (sub x x) = 0) \/ isfinite (sub x x) = false.
Proof.
  intros [H|H].
  - left. destruct (sub_val x x H H) as [F V].
    { rewrite Rminus_diag_eq by reflexivity. rewrite rnd_0, Rabs_R0. apply Raux.bpow_gt_0. }
    split; [exact F|]. change (fval (sf_sub x x) = 0). rewrite V, Rminus_diag_eq by reflexivity. apply rnd_0.
  - right. destruct x as [s|s| |s m k]; try discriminate H; [destruct s; reflexivity|reflexivity].
Qed.

(** ** the graph *)
Lemma nbrs_length edges m : (length (nbrs edges m) <= 2 * length edges)%nat.
Proof.
  induction edges as [|[a b] r IH]; [cbn; lia|]. cbn [nbrs length]. rewrite !app_length.
  destruct (Nat.eqb a m), (Nat.eqb b m); cbn [length]; lia.
Qed.
Lemma csr_lists edges N junk_p junk_i : in_range edges N -> (N < length junk_p)%nat -> (2 * length edges <= length junk_i)%nat ->
  exists ip ix, edges_to_csr junk_p junk_i edges (Some N) = Ok (ip, ix) /\ csr N ip ix
    /\ (forall m n, (m < N)%nat -> (adj ip ix m n <-> In (m, n) edges \/ In (n, m) edges))
    /\ (forall m, (m < N)%nat -> listed ip ix m = nbrs edges m)
    /\ forall m, (length (listed ip ix m) <= 2 * length edges)%nat.
Proof.
  intros Hr Hp Hi. destruct (edges_to_csr_adj edges N (Some N) junk_p junk_i Hr eq_refl Hp Hi) as (ip & ix & E & Hc & Ha).
  destruct (edges_to_csr_ok edges N Hr junk_p junk_i (Some N) eq_refl Hp Hi) as (ip' & ix' & E' & L1 & L2 & Hip & Hsl).
  rewrite E in E'. injection E' as <- <-. exists ip, ix. split; [exact E|]. split; [exact Hc|]. split; [exact Ha|].
  assert (Hl : forall m, (m < N)%nat -> listed ip ix m = nbrs edges m).
  { intros m Hm. unfold listed. rewrite (nth_error_nth _ _ 0%nat (Hip m ltac:(lia))), (nth_error_nth _ _ 0%nat (Hip (S m) ltac:(lia))).
    exact (Hsl m Hm). }
  split; [exact Hl|]. intros m. unfold listed. rewrite firstn_length, skipn_length. lia.
Qed.

Lemma wetted_near rel rho tol e d pm casts near near' stp m : near m = near' m ->
  wetted64 rel rho tol e d pm casts near stp m -> wetted64 rel rho tol e d pm casts near' stp m.
Proof. intros E (c & ps & p & x & H1 & H2 & H3 & H4 & H5 & H6). exists c, ps, p, x. rewrite E in H5. auto 8. Qed.

Lemma mask_wet (x : list bottle64) m : mask (map (fun b : bottle64 => isfinite (snd b)) x) m <-> wet_at x m.
Proof.
  unfold mask, wet_at. rewrite nth_error_map. split.
  - destruct (nth_error x m) as [[[s' t'] p']|]; cbn [option_map]; [|discriminate]. intros G. injection G as G. exists s', t', p'. split; [reflexivity|exact G].
  - intros (s' & t' & p' & -> & G). exact (f_equal Some G).
Qed.
Lemma wet_nodes (x : list bottle64) n : In n (finite_nodes x) <-> wet_at x n.
Proof.
  unfold finite_nodes. rewrite filter_In, in_seq. split.
  - intros [Hn H]. destruct (nth_error x n) as [[[s t] p]|] eqn:E; [|discriminate]. exists s, t, p. split; [exact E|exact H].
  - intros (s & t & p & E & H). pose proof (nth_error_lt _ _ _ E). rewrite E. split; [lia|exact H].
Qed.

Lemma sea_cast a b p q c : a <= b -> p <= q -> cast_in (sea b p) c -> cast_in (sea a q) c.
Proof.
  intros Ha Hq. destruct c as [[Sc Tc] Pc]. intros Hin k K ss ts ps HC i Hi. destruct (Hin k K ss ts ps HC i Hi) as (A & A2 & A3).
  cbn [sea box dS dT dP] in *. unfold upto in *. repeat split; lra.
Qed.

Section Run.
  Variables (eos : f64 -> f64 -> f64 -> res f64) (rho : R -> R -> R -> R) (s0 pm e d' B d : R).
  Hypothesis Her : eos_room eos rho s0 pm e d' B d.
  Variables (ppc_fn : list f64 -> list f64 -> res (list (list f64))) (rel : nat -> (nat -> R) -> (nat -> R) -> (R -> R) -> Prop).
  Hypothesis Hppc : interpolator64 ppc_fn rel (powerRZ 2 (-30)) 10000 42 e.
  Hypothesis Hkeep : keeps ppc_fn.
  Variable interp_two : f64 -> list f64 -> list f64 -> list f64 -> res (f64 * f64).
  Hypothesis Hint : column_interp64 rel e interp_two.
  Variables (eos_s_t : f64 -> f64 -> f64 -> res (f64 * f64)) (vs vt : R -> R -> R -> R) (b : R).
  Variable spsolve : nat -> (nat -> nat -> f64) -> list f64 -> list f64.
  Variable lsqr : nat -> nat -> (nat -> nat -> f64) -> list f64 -> list f64.
  Hypothesis Hsolv : solvers64 spsolve lsqr.
  Variables (fuel loop_fuel : nat) (junk : Z -> list nat) (surf_shape : list nat).
  Variables (casts : list column64) (casts' : list column).
  Variables (edges : list (nat * nat)) (g_dist g_perp : @geom f64) (ds ws : list R).
  Variables (pin : nat) (o : @options f64).
  Notation tol := (TOL_P_SOLVER o).
  Let N := length casts.
  Hypotheses (Ftol : finite64 tol) (Htol : tolerance_ok (fval tol)).
  Hypothesis Hh : Forall2 holds_column casts casts'.
  Hypothesis Hcols : Forall (column_ok64 s0 pm fuel (fval tol)) casts'.
  Hypothesis Hext : Forall same_extent casts'.
  Variable sm : R.
  Hypotheses (Hsm : s0 <= sm) (Hsm0 : 0 < sm).
  Hypothesis Hroom : Forall (cast_in (sea sm (pm - 1))) casts'.
  Hypothesis Hlf : (N < loop_fuel)%nat.
  Hypothesis Hjunk : forall k, (N <= length (junk k))%nat.
  Hypothesis Hedges : in_range edges N.
  Hypothesis Hpin : (pin < N)%nat.
  Variables (ip ix : list nat).
  Hypothesis Hcsr : csr N ip ix.
  Hypothesis Hadj : forall m n, (m < N)%nat -> (adj ip ix m n <-> In (m, n) edges \/ In (n, m) edges).
  Hypothesis Hlst : forall m, (m < N)%nat -> listed ip ix m = nbrs edges m.
  Hypothesis Hdeg : forall m, INR (length (listed ip ix m)) <= powerRZ 2 32.

  Notation surface := (surface64 rel e pm casts').
  Notation water := (water_of rel e).

  Lemma castsN : length casts' = N.
  Proof. symmetry. exact (forall2_len _ _ _ Hh). Qed.
  Lemma room0 : Forall (cast_in (sea s0 (pm - 1))) casts'.
  Proof. eapply Forall_impl; [|exact Hroom]. intros c. apply sea_cast; lra. Qed.
  Lemma roompm c : In c casts' -> cast_in (sea sm pm) c.
  Proof. intros Hc. apply (sea_cast sm sm (pm - 1) pm c); [lra|lra|exact (proj1 (Forall_forall _ _) Hroom c Hc)]. Qed.

  Lemma reach_edges64 (ok : nat -> Prop) n : (forall m, ok m -> (m < N)%nat) -> reach (adj ip ix) ok pin n <-> reach (edge_rel edges) ok pin n.
  Proof.
    intros Hok. split; intros [k HW]; exists k; induction HW as [Hw|k m n' HW IH Hmn Hw]; try (constructor; assumption).
    - econstructor; [exact IH| |assumption]. apply Hadj; [|assumption]. apply Hok. inversion HW; assumption.
    - econstructor; [exact IH| |assumption]. apply Hadj; [|assumption]. apply Hok. inversion HW; assumption.
  Qed.
  Lemma wet_lt64 (x : list bottle64) n : length x = N -> wet_at x n -> (n < N)%nat.
  Proof. intros L (s & t & p & E & _). apply nth_error_lt in E. lia. Qed.
  Lemma surface_len x : surface x -> length x = N.
  Proof. intros [L _]. rewrite L. exact castsN. Qed.

  (** a bottle with a pressure is water, or lost *)
  Lemma wet_water x n y c : surface x -> nth_error x n = Some y -> nth_error casts' n = Some c -> isfinite (snd y) = true ->
    (lost pm y \/ exists v w, sampled rel e c y v w).
  Proof. intros [_ H] Hy Hc Hf. destruct (H n y c Hy Hc) as [E|G]; [rewrite E in Hf; discriminate Hf|exact G]. Qed.
  Lemma water_choice c y : (lost pm y \/ exists v w, sampled rel e c y v w) -> exists w, water c y w.
  Proof.
    intros [(p & -> & _)|(v & w & Hs)].
    - exists None. reflexivity.
    - exists (Some (v, w, fval (snd y))). exists v, w. split; [exact Hs|reflexivity].
  Qed.
  Lemma water_bottle c y w : In c casts' -> water c y w -> bottle_holds (sea s0 pm) e y w.
  Proof.
    intros Hc H. destruct w as [w|].
    - destruct H as (v & u & Hs & ->). pose proof (on_column_holds (sea sm pm) rel e c y (Some (v, u, fval (snd y)))) as G.
      assert (G' : bottle_holds (sea sm pm) e y (Some (v, u, fval (snd y)))).
      { apply G; [|exact (roompm c Hc)|right; exists v, u; split; [exact Hs|reflexivity]]. cbn [sea box dS]. unfold upto. intros s. lra. }
      exact (sea_mono s0 sm pm e Hsm y _ G').
    - destruct y as [[s t] p]. cbn in H. left. exact H.
  Qed.

  (** ** the search *)
  Lemma perim_run ml jk n_rep x : length ml = N -> (N <= length jk)%nat -> surface x ->
    exists D y, bfs_conncomp1_wet_perim eos ppc_fn fuel casts tol ml loop_fuel jk ip ix pin n_rep x = Ok (length D, y)
      /\ surface y /\ NoDup D
      /\ (forall n, In n D -> ~ wet_at x n /\ wetted64 rel rho (fval tol) e (2 * d') pm casts' (nbrs edges) y n)
      /\ (forall n, reach (edge_rel edges) (wet_at x) pin n -> nth_error y n = nth_error x n)
      /\ (forall n s t p, ~ reach (edge_rel edges) (wet_at x) pin n -> ~ In n D -> nth_error x n = Some (s, t, p) -> nth_error y n = Some (s, t, nan))
      /\ (wet_at x pin -> nth_error y pin = nth_error x pin /\ forall n, wet_at y n <-> reach (edge_rel edges) (wet_at y) pin n).
  Proof.
    intros Hml Hjk Hx. pose proof (surface_len x Hx) as Lx.
    destruct (perim64 eos rho s0 pm e d' B d Her ppc_fn rel Hppc Hkeep tol Ftol Htol casts casts' fuel Hh Hcols ml N ip ix pin x Hcsr eq_refl Hml Hx room0 Hdeg
                jk n_rep loop_fuel Hpin Hjk Hlf) as (D & y & E & Hy & Hnd & Hk & Hr & HD).
    pose proof (surface_len y Hy) as Ly.
    assert (Hre : forall n, reach (adj ip ix) (wet_at x) pin n <-> reach (edge_rel edges) (wet_at x) pin n)
      by (intros n; apply reach_edges64; intros m; apply wet_lt64; exact Lx).
    exists D, y. split; [exact E|]. split; [exact Hy|]. split; [exact Hnd|]. split; [|split; [|split]].
    - intros n Hn. destruct (HD n Hn) as (H1 & H2 & _ & H4). split; [exact H2|]. eapply wetted_near; [exact (Hlst n H1)|exact H4].
    - intros n Hn. apply Hk, Hre, Hn.
    - intros n s t p Hn. apply Hr. intros H. apply Hn, Hre, H.
    - intros Hw. assert (HCpin : reach (adj ip ix) (wet_at x) pin pin) by (exists 0%nat; constructor; exact Hw).
      split; [apply Hk; exact HCpin|].
      assert (HCwet : forall n, reach (adj ip ix) (wet_at x) pin n -> wet_at y n).
      { intros n HC. assert (G : wet_at x n) by (destruct HC as [k W]; inversion W; assumption).
        destruct G as (s & t & p & G1 & G2). exists s, t, p. split; [rewrite (Hk n HC); exact G1|exact G2]. }
      assert (HDwet : forall n, In n D -> wet_at y n).
      { intros n Hn. destruct (HD n Hn) as (_ & _ & _ & (c & ps & p & z & _ & _ & Hz & Hp & _ & _ & (Fp & _) & _)).
        destruct z as [[s t] q]. cbn [snd] in Hp. subst q. exists s, t, p. split; [exact Hz|exact (finite_isfinite p Fp)]. }
      intros n. split; [|intros [k W]; inversion W; assumption].
      intros Hwn. apply reach_edges64; [intros m; apply wet_lt64; exact Ly|].
      destruct (classic (reach (adj ip ix) (wet_at x) pin n)) as [HC|HC]; [|destruct (in_dec Nat.eq_dec n D) as [HnD|HnD]].
      + apply reach_in_reach in HC. eapply reach_mono; [|exact HC]. exact HCwet.
      + destruct (HD n HnD) as (_ & _ & Hr' & _). eapply reach_mono; [|exact Hr']. cbn. intros m [G|G]; auto.
      + exfalso. pose proof (wet_lt64 y n Ly Hwn) as Hn. destruct (nth_error x n) as [[[s t] p]|] eqn:Ex; [|apply nth_error_None in Ex; lia].
        pose proof (Hr n s t p HC HnD Ex) as G. destruct Hwn as (s' & t' & p' & G1 & G2). rewrite G in G1. injection G1 as _ _ <-. discriminate G2.
  Qed.

  Notation search := (search eos ppc_fn fuel loop_fuel junk casts pin o).
  Lemma search_run ml k x : length ml = N -> surface x -> wet_at x pin ->
    exists new y qu, search ml ip ix (Z.of_nat k) x = Ok (new, y, qu) /\ surface y /\ nth_error y pin = nth_error x pin
      /\ (wetting o (Z.of_nat k) -> exists D, NoDup D /\ new = length D
            /\ (forall n, In n D -> ~ wet_at x n /\ wetted64 rel rho (fval tol) e (2 * d') pm casts' (nbrs edges) y n)
            /\ (forall n, reach (edge_rel edges) (wet_at x) pin n -> nth_error y n = nth_error x n)
            /\ (forall n s t p, ~ reach (edge_rel edges) (wet_at x) pin n -> ~ In n D -> nth_error x n = Some (s, t, p) -> nth_error y n = Some (s, t, nan)))
      /\ (~ wetting o (Z.of_nat k) -> new = 0%nat /\ y = x)
      /\ NoDup qu /\ forall n, In n qu <-> reach (edge_rel edges) (wet_at y) pin n.
  Proof.
    intros Hml Hx Hw. unfold M_omega.search. pose proof (surface_len x Hx) as Lx. destruct (_ && _) eqn:Ew.
    - apply andb_true_iff in Ew. destruct Ew as [W1 W2]. apply Z.leb_le in W1, W2.
      destruct (perim_run ml (junk (Z.of_nat k)) (ITER_WET_PERIM o) x Hml (Hjunk _) Hx) as (D & y & E & Hy & Hnd & HD & Hk & Hr & Hq).
      rewrite E. cbn [bind fst snd]. destruct (Hq Hw) as [H1 H2].
      exists (length D), y, (finite_nodes y). split; [reflexivity|]. split; [exact Hy|]. split; [exact H1|].
      split; [intros _; exists D; auto 8|]. split; [intros H; exfalso; apply H; split; assumption|].
      split; [apply NoDup_filter, seq_NoDup|]. intros n. rewrite wet_nodes. apply H2.
    - assert (W : ~ wetting o (Z.of_nat k)).
      { intros [W1 W2]. apply andb_false_iff in Ew. destruct Ew as [Ew|Ew]; apply Z.leb_gt in Ew; lia. }
      destruct (bfs_component N ip ix pin (map (fun b : bottle64 => isfinite (snd b)) x) (junk (Z.of_nat k)) Hcsr) as (qu & good' & E & Hnd & Hqu & _);
        [rewrite map_length; exact Lx|exact Hpin|apply Hjunk|].
      rewrite (E loop_fuel Hlf). cbn [bind fst]. exists 0%nat, x, (sort_nat qu). split; [reflexivity|]. split; [exact Hx|].
      split; [reflexivity|]. split; [intros H; elim (W H)|]. split; [auto|]. split; [apply sort_nodup; exact Hnd|]. intros n. rewrite sort_in, Hqu.
      rewrite <- reach_edges64 by (intros m; apply wet_lt64, Lx).
      split; apply reach_mono; intros m; apply mask_wet.
  Qed.

  (** ** one iteration *)
  Variable f : formulation.
  Variable dr : @geom f64.
  Notation solver := (global_solver eos_s_t spsolve lsqr f).
  Notation l m := (S_system64.inner m edges (weights ds ws)).
  Notation solved w m phi := (solved64 spsolve lsqr f b (S_system64.inner m%list edges (weights ds ws)) (fun i j => edge_error vs vt (w i) (w j)) N m pin phi).
  Hypothesis Hsys : forall stp w m, NoDup m -> In pin m -> length stp = N ->
    (forall i, In i m -> exists x, nth_error stp i = Some x /\ bottle_holds (sea s0 pm) e x (w i)) ->
    exists phi, solver stp edges dr m pin = Ok phi /\ solved w m phi.

  Lemma solved_values w m phi : NoDup m -> In pin m -> (forall i, In i m -> (i < N)%nat) -> solved w m phi ->
    length phi = N /\ Forall float64 phi /\ (forall n v, nth_error phi n = Some v -> In n m \/ v = nan)
    /\ exists v, nth_error phi pin = Some v /\ ((finite64 v /\ fval v = 0) \/ isfinite v = false).
  Proof.
    intros Hnd Hp Hlt [H1 H2]. destruct fl_zero as [F0 V0]. destruct (In_nth_error _ _ Hp) as [kp Hkp].
    assert (G : exists val, placed N m val phi
              /\ (forall k i, nth_error m k = Some i -> exists x, val k i = Some x /\ float64 x)
              /\ forall x, val kp pin = Some x -> (finite64 x /\ fval x = 0) \/ isfinite x = false).
    { destruct Hsolv as [Hsp Hls]. destruct (Nat.le_gt_cases (length m) 1) as [L|L].
      - exists (fun _ _ => Some zero). split; [exact (H1 L)|]. split.
        + intros k i _. exists zero. split; [reflexivity|]. left. exact F0.
        + intros x E. injection E as <-. left. split; [exact F0|exact V0].
      - specialize (H2 L). destruct f.
        + destruct H2 as (A & r & _ & H2). destruct (Hsp (length m) A r) as [Ls Fs]. rewrite Forall_forall in Fs. eexists. split; [exact H2|]. split.
          * intros k i Hk. cbv beta. destruct (Nat.eqb i pin); [exists zero; split; [reflexivity|left; exact F0]|].
            destruct (nth_error (spsolve (length m) A r) k) as [x|] eqn:Ex; [|apply nth_error_None in Ex; apply nth_error_lt in Hk; lia].
            exists x. split; [reflexivity|]. apply Fs. eapply nth_error_In. exact Ex.
          * intros x E. cbv beta in E. rewrite Nat.eqb_refl in E. injection E as <-. left. split; [exact F0|exact V0].
        + destruct H2 as (A & r & k0 & s & _ & Hk0 & Hs & H2). destruct (Hls (S (length (l m))) (length m) A r) as [Ls Fs]. rewrite Forall_forall in Fs.
          assert (FS : float64 s) by (apply Fs; eapply nth_error_In; exact Hs).
          eexists. split; [exact H2|]. split.
          * intros k i Hk. cbv beta. destruct (nth_error (lsqr _ _ A r) k) as [x|] eqn:Ex; [|apply nth_error_None in Ex; apply nth_error_lt in Hk; lia].
            cbn [option_map]. eexists. split; [reflexivity|]. apply float_sub; [|exact FS]. apply Fs. eapply nth_error_In. exact Ex.
          * assert (k0 = kp) as -> by (eapply (proj1 (NoDup_nth_error m) Hnd); [eapply nth_error_lt; exact Hk0|congruence]).
            intros x E. cbv beta in E. rewrite Hs in E. cbn [option_map] in E. injection E as <-. apply sub_self. exact FS. }
    destruct G as (val & (L & P1 & P2) & G1 & G2). split; [exact L|].
    assert (Hcase : forall n v, nth_error phi n = Some v -> (In n m /\ float64 v) \/ v = nan).
    { intros n v Hv. destruct (in_dec Nat.eq_dec n m) as [Hn|Hn].
      - left. split; [exact Hn|]. destruct (In_nth_error _ _ Hn) as [k Hk]. destruct (G1 k n Hk) as (x & Ex & Fx). rewrite (P1 k n Hk), Ex in Hv. injection Hv as <-. exact Fx.
      - right. assert (Hl' : (n < N)%nat) by (rewrite <- L; eapply nth_error_lt; exact Hv). rewrite (P2 n Hl' Hn) in Hv. injection Hv as <-. reflexivity. }
    split; [|split].
    - apply Forall_forall. intros v Hv. destruct (In_nth_error _ _ Hv) as [n Hn]. destruct (Hcase n v Hn) as [[_ H]| ->]; [exact H|right; reflexivity].
    - intros n v Hv. destruct (Hcase n v Hv) as [[H _]|H]; [left; exact H|right; exact H].
    - destruct (G1 kp pin Hkp) as (x & Ex & _). exists x. split; [rewrite (P1 kp pin Hkp); exact Ex|exact (G2 x Ex)].
  Qed.

  Variable pin_p : f64.
  Hypotheses (Fpp : finite64 pin_p) (Hpp : 0 <= fval pin_p <= pm).
  Definition pinned (x : list bottle64) : Prop := exists s t, nth_error x pin = Some (s, t, pin_p).
  Lemma pinned_wet64 x : pinned x -> wet_at x pin.
  Proof. intros (s & t & E). exists s, t, pin_p. split; [exact E|exact (finite_isfinite pin_p Fpp)]. Qed.
  Definition tidy (x : list bottle64) : Prop := forall n y c, nth_error x n = Some y -> nth_error casts' n = Some c -> exists w, water c y w.

  (** pressures of a surface *)
  Lemma surface_pressure x y : surface x -> In y x -> snd y = nan \/ finite64 (snd y) /\ 0 <= fval (snd y) <= 10000.
  Proof.
    intros Hx Hb. destruct (In_nth_error _ _ Hb) as [n Hn]. pose proof (nth_error_lt _ _ _ Hn) as Hl. rewrite (surface_len x Hx) in Hl.
    destruct (nth_error casts' n) as [c|] eqn:Ec; [|apply nth_error_None in Ec; rewrite castsN in Ec; lia].
    pose proof (er_pm _ _ _ _ _ _ _ _ Her) as Hm.
    destruct (proj2 Hx n y c Hn Ec) as [H|[(p & -> & Fp & Vp)|(v & w & Hs)]]; [left; exact H|right; cbn [snd]; split; [exact Fp|lra]|right].
    pose proof (water_bottle c y (Some (v, w, fval (snd y))) (nth_error_In _ _ Ec)) as G. destruct y as [[s t] p]. cbn [snd] in *.
    destruct G as (_ & _ & Fp & _ & _ & _ & _ & Dp); [exists v, w; split; [exact Hs|reflexivity]|]. split; [exact Fp|]. cbn [sea box dP] in Dp. unfold upto in Dp. lra.
  Qed.

  (** a bottle that may be left by an iteration *)
  Definition good (c : column) (y : bottle64) : Prop := y = (nan, nan, nan) \/ lost pm y \/ exists v w, sampled rel e c y v w.
  Lemma good_surface x : length x = N -> (forall n y c, nth_error x n = Some y -> nth_error casts' n = Some c -> good c y) -> surface x /\ tidy x.
  Proof.
    intros L H. split; [split; [rewrite castsN; exact L|]|]; intros n y c Hy Hc; (destruct (H n y c Hy Hc) as [->|G]).
    - left. reflexivity.
    - right. exact G.
    - exists None. reflexivity.
    - exact (water_choice c y G).
  Qed.

  Variable ml : list f64.
  Hypothesis Hml : length ml = N.
  Hypothesis Hml_pin : forall m, nth_error ml pin = Some m -> ltb pin_p m = false.

  Lemma cut_run x : surface x -> pinned x -> exists y, remove_ml ml x = Ok y /\ surface y /\ pinned y.
  Proof.
    intros Hx (s & t & Hp). pose proof (surface_len x Hx) as Lx. destruct Hx as [Lx' Hx].
    assert (Ey : exists y, remove_ml ml x = Ok y).
    { unfold remove_ml. replace (Nat.eqb (length ml) (length x)) with true by (symmetry; apply Nat.eqb_eq; unfold N in *; lia). eexists. reflexivity. }
    destruct Ey as [y Ey]. exists y. split; [exact Ey|].
    destruct (remove_ml_inv _ _ _ Ey) as [Ly Hy]. split.
    - split; [rewrite Ly; exact Lx'|]. intros n z c Hz Hc. pose proof (nth_error_lt _ _ _ Hc) as Hn. rewrite castsN in Hn.
      destruct (nth_error x n) as [[[s' t'] p']|] eqn:Ex; [|apply nth_error_None in Ex; lia].
      destruct (nth_error ml n) as [m|] eqn:Em; [|apply nth_error_None in Em; lia].
      rewrite (Hy _ _ _ _ _ Ex (or_introl Em)) in Hz. assert (Eb : z = (s', t', if ltb p' m then nan else p')) by congruence.
      subst z. destruct (ltb p' m); [left; reflexivity|]. apply (Hx n); assumption.
    - destruct (nth_error ml pin) as [m|] eqn:Em; [|apply nth_error_None in Em; lia].
      exists s, t. rewrite (Hy _ _ _ _ _ Hp (or_introl Em)), (Hml_pin m eq_refl). reflexivity.
  Qed.

  (** moving all columns *)
  Lemma move_run x phi : length x = N -> length phi = N -> Forall float64 phi ->
    (forall n y c v, nth_error x n = Some y -> nth_error casts' n = Some c -> nth_error phi n = Some v -> isfinite v = true -> lost pm y \/ exists u w, sampled rel e c y u w) ->
    exists z, vertsolve_omega eos ppc_fn fuel tol x casts phi = Ok z /\ length z = N
      /\ forall n y c v q, nth_error x n = Some y -> nth_error casts' n = Some c -> nth_error phi n = Some v -> nth_error z n = Some q ->
           moved64 rel rho pm (fval tol) e (2 * d') c y v q.
  Proof.
    intros Lx Lp Hf Hin. unfold vertsolve_omega.
    assert (H : forall k n, (n + k = N)%nat -> exists z,
      mapM (fun n => let! x := get x n in let! f := get phi n in let! c := get casts n in vertsolve_omega_1 eos ppc_fn fuel tol x c f) (seq n k) = Ok z
      /\ length z = k
      /\ forall i y c v q, nth_error x (n + i) = Some y -> nth_error casts' (n + i) = Some c -> nth_error phi (n + i) = Some v -> nth_error z i = Some q ->
           moved64 rel rho pm (fval tol) e (2 * d') c y v q).
    { induction k as [|k IH]; intros n Hn.
      - exists []. split; [reflexivity|]. split; [reflexivity|]. intros [|i] y c v q _ _ _; discriminate.
      - destruct (IH (S n) ltac:(lia)) as (z & E & L & Hz).
        destruct (nth_error x n) as [y|] eqn:Ex; [|apply nth_error_None in Ex; lia].
        destruct (nth_error casts n) as [c|] eqn:Ec; [|apply nth_error_None in Ec; unfold N in *; lia].
        destruct (nth_error phi n) as [v|] eqn:Ef; [|apply nth_error_None in Ef; lia].
        destruct (cast_of s0 pm tol casts casts' fuel Hh Hcols n c Ec) as (c' & Ec' & Hc & (K1 & K2 & K3 & K4 & K5)).
        destruct (omega_moved eos rho s0 pm e d' B d Her ppc_fn rel Hppc tol Ftol Htol y v c c' fuel) as (q & Eq & Hq).
        { exact (proj1 (Forall_forall _ _) Hf v (nth_error_In _ _ Ef)). }
        { intros Fv _. exact (Hin n y c' v Ex Ec' Ef Fv). }
        { exact Hc. } { exact K1. } { exact K2. } { exact K3. } { exact K4. } { exact K5. }
        exists (q :: z). split; [|split; [cbn; congruence|]].
        + cbn [seq mapM]. rewrite (get_ok _ _ _ Ex), (get_ok _ _ _ Ef), (get_ok _ _ _ Ec). cbn [bind]. rewrite Eq. cbn [bind]. rewrite E. reflexivity.
        + intros [|i] y' c0 v' q'.
          * rewrite Nat.add_0_r, Ex, Ec', Ef. cbn [nth_error]. intros E1 E2 E3 E4.
            assert (y' = y /\ c0 = c' /\ v' = v /\ q' = q) as (-> & -> & -> & ->) by (repeat split; congruence). exact Hq.
          * replace (n + S i)%nat with (S n + i)%nat by lia. cbn [nth_error]. apply Hz. }
    rewrite Lx. destruct (H N 0%nat ltac:(lia)) as (z & E & L & Hz). exists z. split; [exact E|]. split; [exact L|exact Hz].
  Qed.

  Notation one := (one_iteration eos eos_s_t ppc_fn spsolve lsqr fuel loop_fuel junk casts pin o).
  Notation step := (step64 rel rho vs vt (fval tol) e (2 * d') b pm casts' edges (weights ds ws) pin pin_p o spsolve lsqr).
  Hypothesis Hasked : asked o f.

  Lemma one_run k x dp : surface x -> pinned x ->
    exists r, one f dr edges ml ip ix pin_p (Z.of_nat k) x dp = Ok r /\ step k r /\ pinned (i_out r) /\ tidy (i_out r).
  Proof.
    intros Hx Hp. unfold one_iteration.
    assert (H0 : exists x0, (if (1 <? Z.of_nat k)%Z then remove_ml ml x else Ok x) = Ok x0 /\ surface x0 /\ pinned x0).
    { destruct (1 <? Z.of_nat k)%Z; [apply cut_run; assumption|]. exists x. auto. }
    destruct H0 as (x0 & -> & Hx0 & Hp0). cbn [bind].
    destruct (search_run ml k x0 Hml Hx0 (pinned_wet64 _ Hp0)) as (new & x1 & qu & -> & Hx1 & Hp1 & Hwet & Hdry & Hnd & Hqu). cbn [bind].
    assert (Hpin1 : pinned x1) by (unfold pinned; rewrite Hp1; exact Hp0).
    pose proof (surface_len x1 Hx1) as L1.
    assert (Hpq : In pin qu) by (apply Hqu; exists 0%nat; constructor; apply pinned_wet64; exact Hpin1).
    assert (Hqw : forall n, In n qu -> wet_at x1 n) by (intros n Hn; apply Hqu in Hn; destruct Hn as [j W]; inversion W; assumption).
    assert (Hql : forall n, In n qu -> (n < N)%nat) by (intros n Hn; apply (wet_lt64 x1 n L1), Hqw, Hn).
    assert (Hnode : forall n y c, nth_error x1 n = Some y -> nth_error casts' n = Some c -> In n qu -> lost pm y \/ exists u w, sampled rel e c y u w).
    { intros n y c Hy Hc Hn. apply (wet_water x1 n y c Hx1 Hy Hc). destruct (Hqw n Hn) as (s & t & p & E & Fp). rewrite Hy in E. injection E as ->. exact Fp. }
    assert (Hw : exists w, forall n, In n qu -> exists y c, nth_error x1 n = Some y /\ nth_error casts' n = Some c /\ water c y (w n)).
    { assert (G : forall n, exists w, In n qu -> exists y c, nth_error x1 n = Some y /\ nth_error casts' n = Some c /\ water c y w).
      { intros n. destruct (in_dec Nat.eq_dec n qu) as [Hn|Hn]; [|exists None; intros H; elim (Hn H)]. pose proof (Hql n Hn) as Hlt.
        destruct (nth_error x1 n) as [y|] eqn:Ey; [|apply nth_error_None in Ey; lia].
        destruct (nth_error casts' n) as [c|] eqn:Ec; [|apply nth_error_None in Ec; rewrite castsN in Ec; lia].
        destruct (water_choice c y (Hnode n y c Ey Ec Hn)) as [w Hw]. exists w. intros _. exists y, c. split; [reflexivity|]. split; [reflexivity|exact Hw]. }
      assert (C : forall m, exists w : nat -> option (R * R * R), forall n, (n < m)%nat -> In n qu -> exists y c, nth_error x1 n = Some y /\ nth_error casts' n = Some c /\ water c y (w n)).
      { induction m as [|m [w IH]]; [exists (fun _ => None); intros n Hn; lia|]. destruct (G m) as [wm Hm].
        exists (fun n => if Nat.eqb n m then wm else w n). intros n Hn Hq. destruct (Nat.eqb_spec n m) as [->|Hne]; [exact (Hm Hq)|]. apply IH; [lia|exact Hq]. }
      destruct (C N) as [w Hw]. exists w. intros n Hn. exact (Hw n (Hql n Hn) Hn). }
    destruct Hw as [w Hw].
    destruct (Hsys x1 w qu Hnd Hpq L1) as (phi & -> & Hphi).
    { intros n Hn. destruct (Hw n Hn) as (y & c & Hy & Hc & Hwy). exists y. split; [exact Hy|]. apply (water_bottle c); [exact (nth_error_In _ _ Hc)|exact Hwy]. }
    cbn [bind]. destruct (solved_values w qu phi Hnd Hpq Hql Hphi) as (Lp & Fp & Hoff & (v & Hv & Hv0)).
    assert (Hfin : forall n u, nth_error phi n = Some u -> isfinite u = true -> In n qu).
    { intros n u Hu Fu. destruct (Hoff n u Hu) as [H|H]; [exact H|]. rewrite H in Fu. discriminate Fu. }
    destruct (move_run x1 phi L1 Lp Fp) as (x2 & -> & L2 & Hmv).
    { intros n y c u Hy Hc Hu Fu. exact (Hnode n y c Hy Hc (Hfin n u Hu Fu)). }
    cbn [bind].
    destruct (nth_error casts' pin) as [cp|] eqn:Ecp; [|apply nth_error_None in Ecp; rewrite castsN in Ecp; lia].
    pose proof Hpin1 as (sp & tp & Hx1p).
    destruct (nth_error x2 pin) as [q|] eqn:Eq; [|apply nth_error_None in Eq; lia].
    rewrite (P_matsolve.np_get_ok _ _ _ Eq). cbn [bind]. rewrite np_set_ok by lia. cbn [bind].
    set (z := (fst (fst q), snd (fst q), pin_p)).
    assert (Hq : (finite64 v /\ fval v = 0 /\ z = (sp, tp, pin_p)) \/ (isfinite v = false /\ z = (nan, nan, pin_p))).
    { pose proof (Hmv pin _ cp v q Hx1p Ecp Hv Eq) as M. unfold z. destruct Hv0 as [[Fv V0]|Nv].
      - left. split; [exact Fv|]. split; [exact V0|]. destruct M as [(_ & _ & ->)|[(Nv & _)|[(_ & Hne & _)|(_ & Hne & _)]]]; [reflexivity| |elim (Hne V0)|elim (Hne V0)].
        pose proof (finite_isfinite v Fv) as C. change (sf_isfinite v) with (isfinite v) in C. congruence.
      - right. split; [exact Nv|]. destruct M as [(Fv & _)|[(_ & ->)|[(Fv & _)|(Fv & _)]]]; [|reflexivity| |];
          pose proof (finite_isfinite v Fv) as C; change (sf_isfinite v) with (isfinite v) in C; congruence. }
    set (x3 := upd x2 pin z).
    assert (L3 : length x3 = N) by (unfold x3; rewrite length_upd; exact L2).
    assert (Hx3p : nth_error x3 pin = Some z) by (apply nth_error_upd_eq; lia).
    assert (Hx3 : forall n, n <> pin -> nth_error x3 n = nth_error x2 n) by (intros n Hn; apply nth_error_upd_neq; congruence).
    destruct (good_surface x3 L3) as [Hs3 Ht3].
    { intros n y c Hy Hc. destruct (Nat.eq_dec n pin) as [->|Hn].
      - rewrite Hx3p in Hy. injection Hy as <-. right. rewrite Ecp in Hc. injection Hc as <-. destruct Hq as [(_ & _ & ->)|(_ & ->)].
        + exact (Hnode pin _ cp Hx1p Ecp Hpq).
        + left. exists pin_p. split; [reflexivity|]. split; [exact Fpp|exact Hpp].
      - rewrite (Hx3 n Hn) in Hy. pose proof (nth_error_lt _ _ _ Hy) as Hlt. rewrite L2 in Hlt.
        destruct (nth_error x1 n) as [a|] eqn:Ea; [|apply nth_error_None in Ea; lia].
        destruct (nth_error phi n) as [u|] eqn:Eu; [|apply nth_error_None in Eu; lia].
        destruct (Hmv n a c u y Ea Hc Eu Hy) as [(Fu & _ & ->)|[(_ & ->)|[(_ & _ & _ & ->)|(_ & _ & v1 & v2 & _ & Hsp)]]].
        + right. apply (Hnode n a c Ea Hc). apply (Hfin n u Eu). exact (finite_isfinite u Fu).
        + left. reflexivity.
        + left. reflexivity.
        + destruct (surface_cases _ _ _ _ _ _ _ Hsp) as [->|Hs]; [left; reflexivity|right; right; exact Hs]. }
    eexists. split; [reflexivity|]. cbn [i_out]. split; [|split; [|exact Ht3]].
    2:{ exists (fst (fst q)), (snd (fst q)). exact Hx3p. }
    constructor; cbn [i_in i_new i_wet i_nodes i_phi i_out i_phi_mav i_dp_rms].
    - exact Hx1.
    - exact Hs3.
    - exact Hwet.
    - exact Hdry.
    - split; [exact Hnd|exact Hqu].
    - exists w, f. split; [exact Hasked|]. split; [exact Hw|]. rewrite castsN. exact Hphi.
    - intros n y c u a Hn Hy Hc Hu Ha. fold z x3 in Ha. rewrite (Hx3 n Hn) in Ha. exact (Hmv n y c u a Hy Hc Hu Ha).
    - exists sp, tp, v. split; [rewrite <- Hp1; exact Hx1p|]. split; [exact Hx1p|]. split; [exact Hv|].
      destruct Hq as [(Fv & V0 & Ez)|(Nv & Ez)]; [left; split; [exact Fv|]; split; [exact V0|]|right; split; [exact Nv|]];
        exact (eq_trans Hx3p (f_equal Some Ez)).
    - rewrite castsN. intros HN. rewrite <- Lp. split.
      + intros Hne Hb. apply mav_ok; [rewrite Lp; exact HN|exact Hb|exact Hne].
      + intros Hnan. apply nanmean_none. apply Forall_forall. intros u Hu. apply in_map_iff in Hu. destruct Hu as (u' & <- & Hu). rewrite (Hnan u' Hu). reflexivity.
    - rewrite castsN. intros HN Hon. replace (o_diags o || (TOL_P_CHANGE_RMS o >? lit 0 0)%num) with true.
      2:{ symmetry. apply orb_true_intro. destruct Hon as [Hon|Hon]; [left; exact Hon|right; exact Hon]. }
      fold z x3. rewrite <- L1. apply rms_ok; [rewrite L1; exact HN|congruence| |].
      + intros y Hy. apply in_app_or in Hy. destruct Hy as [Hy|Hy]; [exact (surface_pressure x1 y Hx1 Hy)|exact (surface_pressure x3 y Hs3 Hy)].
      + assert (Hi : In ((sp, tp, pin_p), z) (combine x1 x3)).
        { apply nth_error_In with pin. clear - Hx1p Hx3p. revert Hx1p Hx3p. generalize (sp, tp, pin_p). generalize z. generalize x3. generalize x1. clear. intros a b z y.
          revert a b. induction pin as [|n IH]; intros [|a0 a] [|b0 b] H1 H2; cbn [nth_error combine] in *; try discriminate; [congruence|]. apply IH; assumption. }
        intros E. unfold changes64 in E. assert (F : In (fval pin_p - fval pin_p) []); [|destruct F].
        rewrite <- E. apply in_flat_map. exists ((sp, tp, pin_p), z). split; [exact Hi|]. cbn [fst snd]. unfold z. cbn [snd].
        replace (isfinite pin_p) with true by (symmetry; exact (finite_isfinite _ Fpp)). left. reflexivity.
  Qed.

  (** ** diagnostics *)
  Notation norms y := (ntp_epsilon_errors_norms eos_s_t y (GDict (Some edges) (Some g_dist) (Some g_perp))).
  Hypothesis Hnorm : forall x w, length x = N -> Forall2 (bottle_holds (sea s0 pm) e) x w ->
    exists rms mav, norms x = Ok (rms, mav) /\ norms_hold b (length edges) (wet (edge_errors vs vt w edges) ds ws) rms mav.
  Notation norms_of := (norms64_of rel e b vs vt casts' edges ds ws).

  Lemma norms_run x : length x = N -> tidy x -> exists rms mav, norms x = Ok (rms, mav) /\ norms_of x rms mav.
  Proof.
    intros L Ht.
    assert (G : forall (x : list bottle64) (cs : list column), length x = length cs -> (forall c, In c cs -> In c casts') ->
      (forall n y c, nth_error x n = Some y -> nth_error cs n = Some c -> exists w, water c y w) ->
      exists wl, Forall2 (bottle_holds (sea s0 pm) e) x wl /\ length wl = length x
        /\ forall n y c, nth_error x n = Some y -> nth_error cs n = Some c -> water c y (nth n wl None)).
    { clear x L Ht. induction x as [|y x IH]; intros [|c cs] L Hin H; try discriminate L.
      - exists []. split; [constructor|]. split; [reflexivity|]. intros [|n] y c; discriminate.
      - destruct (IH cs) as (wl & W1 & W2 & W3).
        { injection L as L. exact L. } { intros c' Hc'. apply Hin. right. exact Hc'. } { intros n y' c' Hy Hc. exact (H (S n) y' c' Hy Hc). }
        destruct (H 0%nat y c eq_refl eq_refl) as [w Hw]. exists (w :: wl). split; [|split].
        + constructor; [|exact W1]. apply (water_bottle c); [apply Hin; left; reflexivity|exact Hw].
        + cbn. congruence.
        + intros [|n] y' c' Hy Hc; [|exact (W3 n y' c' Hy Hc)]. cbn [nth_error nth] in *.
          assert (y' = y /\ c' = c) as [-> ->] by (split; congruence). exact Hw. }
    destruct (G x casts') as (wl & W1 & W2 & W3); [rewrite castsN; exact L|auto|exact Ht|].
    destruct (Hnorm x wl L W1) as (rms & mav & E & Hn). exists rms, mav. split; [exact E|]. exists wl. split; [exact W3|]. split; [exact W2|exact Hn].
  Qed.

  Notation record := (record eos_s_t (Some edges) (Some g_dist) (Some g_perp)).
  Lemma record_run dg it r n : dlength dg n -> (it < n)%nat -> length (i_out r) = N -> tidy (i_out r) -> exists dg', record dg it r = Ok dg' /\ dlength dg' n.
  Proof.
    intros HL Hit Lo Ht. pose proof HL as (L1 & L2 & L3 & L4 & L5 & L6 & L7 & L8). destruct (norms_run (i_out r) Lo Ht) as (rms & mav & Ee & _).
    assert (H : exists d', record dg it r = Ok d').
    { unfold M_omega.record. rewrite Ee. repeat (rewrite np_set_ok by lia; cbn [bind]). eexists. reflexivity. }
    destruct H as (dg' & H). exists dg'. split; [assumption|]. apply (record_ok _ _ _ _ _ _ _ _ _ H HL).
  Qed.

  (** ** the loop *)
  Notation iterate := (iterate eos eos_s_t ppc_fn spsolve lsqr fuel loop_fuel junk casts (Some edges) (Some g_dist) (Some g_perp) pin o).
  Lemma iterate_ok64 tol_lrpd n : forall k it x dp dg, surface x -> pinned x -> tidy x ->
    (o_diags o = true -> dlength dg n /\ (it + k <= n)%nat) ->
    exists its y dg', iterate f dr edges ml ip ix pin_p tol_lrpd k it x dp dg = Ok (its, y, dg')
      /\ (forall j r, nth_error its j = Some r -> step (it + j) r /\ length (i_out r) = N /\ tidy (i_out r)) /\ surface y /\ pinned y /\ (k <> 0%nat -> its <> []).
  Proof.
    induction k as [|k IH]; intros it x dp dg Hx Hp Ht Hd; cbn [M_omega.iterate].
    - exists [], x, dg. split; [reflexivity|]. split; [intros [|j] r; discriminate|]. auto.
    - destruct (one_run it x dp Hx Hp) as (r & -> & Hs & Hpr & Htr). cbn [bind].
      pose proof (s64_out _ _ _ _ _ _ _ _ _ _ _ _ _ _ _ _ _ _ _ Hs) as Ho'. pose proof (surface_len _ Ho') as Lo.
      assert (H : exists d', (if o_diags o then record dg it r else Ok dg) = Ok d' /\ (o_diags o = true -> dlength d' n /\ (S it + k <= n)%nat)).
      { destruct (o_diags o) eqn:Ed.
        - destruct (Hd eq_refl) as [HL Hn]. destruct (record_run dg it r n HL ltac:(lia) Lo Htr) as (dg' & E & L'). exists dg'. split; [assumption|]. intros _. split; [assumption|lia].
        - exists dg. split; [reflexivity|]. discriminate. }
      destruct H as (dg' & -> & Hd'). cbn [bind]. destruct (_ && _)%bool.
      + exists [r], (i_out r), dg'. split; [reflexivity|]. split; [|split; [exact Ho'|split; [exact Hpr|discriminate]]].
        intros [|[|j]] r' Hr; try discriminate. cbn in Hr. injection Hr as <-. rewrite Nat.add_0_r. split; [exact Hs|]. split; [exact Lo|exact Htr].
      + destruct (IH (S it) (i_out r) (i_dp_rms r) dg' Ho' Hpr Htr Hd') as (its & y & dg'' & -> & H1 & H2 & H3 & _). cbn [bind fst snd].
        exists (r :: its), y, dg''. split; [reflexivity|]. split; [|split; [exact H2|split; [exact H3|discriminate]]].
        intros [|j] r' Hr.
        * cbn in Hr. injection Hr as <-. rewrite Nat.add_0_r. split; [exact Hs|]. split; [exact Lo|exact Htr].
        * cbn in Hr. replace (it + S j)%nat with (S it + j)%nat by lia. exact (H1 j r' Hr).
  Qed.

  (** ** the initial surface *)
  Notation initial := (initial eos ppc_fn interp_two fuel loop_fuel junk surf_shape casts pin o).
  Hypothesis Hincast : in_cast casts' pin (fval pin_p).
  Definition clean64 (x : bottle64) : bottle64 := if isnan (fst (fst x)) then (fst (fst x), snd (fst x), nan) else x.
  Lemma clean_sampled c y v w : sampled rel e c y v w -> clean64 y = y.
  Proof.
    intros (gS & gT & lo & hi & s & t & p & _ & -> & _ & _ & _ & _ & [Fs _] & _). unfold clean64. cbn [fst snd].
    pose proof (finite_isfinite s Fs) as C. destruct s; [reflexivity|discriminate C|discriminate C|reflexivity].
  Qed.
  Lemma clean_lost y : lost pm y -> clean64 y = (nan, nan, nan).
  Proof. intros (p & -> & _). reflexivity. Qed.
  Lemma clean_good c y : good c y -> good c (clean64 y).
  Proof.
    intros [->|[H|(v & w & H)]].
    - left. reflexivity.
    - left. exact (clean_lost y H).
    - right. right. exists v, w. rewrite (clean_sampled _ _ _ _ H). exact H.
  Qed.
  Lemma masked_clean x : masked x (map clean64 x).
  Proof. split; [apply map_length|]. intros n s t p E. rewrite nth_error_map, E. cbn [option_map]. unfold clean64. cbn [fst snd]. destruct (isnan s); reflexivity. Qed.

  (** interpolation of a column *)
  Lemma interp_run n Sc Tc Pc c' (p : f64) : nth_error casts n = Some (Sc, Tc, Pc) -> nth_error casts' n = Some c' -> float64 p ->
    (forall gS gT lo hi, profile rel c' gS gT lo hi -> inside64 p lo hi ->
       exists s t v w, interp_two p Pc Sc Tc = Ok (s, t) /\ sampled rel e c' (s, t, p) v w)
    /\ ((forall gS gT lo hi, profile rel c' gS gT lo hi -> ~ inside64 p lo hi) -> interp_two p Pc Sc Tc = Ok (nan, nan)).
  Proof.
    intros Ec Ec' Fp. destruct (cast_of s0 pm tol casts casts' fuel Hh Hcols n _ Ec) as (c0 & Ec0 & Hc & (K1 & K2 & K3 & K4 & K5)).
    rewrite Ec' in Ec0. injection Ec0 as <-.
    apply (Hint s0 pm Sc Tc Pc c' p); try assumption.
    - exact (er_s0 _ _ _ _ _ _ _ _ Her).
    - exact (er_pm _ _ _ _ _ _ _ _ Her).
    - exact (proj1 (Forall_forall _ _) Hext c' (nth_error_In _ _ Ec')).
  Qed.
  Lemma pin_run : exists Sc Tc Pc c s t v w, nth_error casts pin = Some (Sc, Tc, Pc) /\ nth_error casts' pin = Some c
    /\ interp_two pin_p Pc Sc Tc = Ok (s, t) /\ sampled rel e c (s, t, pin_p) v w.
  Proof.
    destruct Hincast as (S' & T' & P' & k & K & ss & ts & ps & Ec' & HC & Hlev & Hr).
    destruct (nth_error casts pin) as [[[Sc Tc] Pc]|] eqn:Ec; [|apply nth_error_None in Ec; unfold N in *; lia].
    destruct (cast_of s0 pm tol casts casts' fuel Hh Hcols pin _ Ec) as (c0 & Ec0 & Hc & (K1 & K2 & K3 & K4 & K5)).
    rewrite Ec' in Ec0. injection Ec0 as <-.
    destruct (cast_interpolants64 ppc_fn rel s0 pm e (er_pm _ _ _ _ _ _ _ _ Her) (er_s0 _ _ _ _ _ _ _ _ Her) Hppc Sc Tc Pc S' T' P' k K ss ts ps
      (proj1 Hc) (proj1 (proj2 Hc)) (proj2 (proj2 Hc)) HC Hlev K2 K3)
      as (Sppc & Tppc & gS & gT & A & B' & _ & _ & Hpr & _ & _ & _ & _ & VA & VB & _).
    destruct (interp_run pin Sc Tc Pc _ pin_p Ec Ec' (or_introl Fpp)) as [H _].
    destruct (H gS gT _ _ Hpr) as (s & t & v & w & E & Hs).
    { split; [exact Fpp|]. rewrite VA, VB. exact Hr. }
    exists Sc, Tc, Pc, (S', T', P'), s, t, v, w. split; [reflexivity|]. split; [exact Ec'|]. split; [exact E|exact Hs].
  Qed.

  Lemma initial_run p_init : starts_at64 surf_shape N pin pin_p p_init ->
    exists x, initial p_init ml ip ix = Ok (x, pin_p)
      /\ initial64 rel rho (fval tol) e (2 * d') pm casts' edges pin pin_p p_init (map clean64 x)
      /\ surface (map clean64 x) /\ tidy (map clean64 x)
      /\ exists s t, nth_error x pin = Some (s, t, pin_p) /\ isnan s = false /\ nth_error (map clean64 x) pin = Some (s, t, pin_p).
  Proof.
    intros Hs. destruct pin_run as (Sp & Tp & Pp & cp & sp & tp & v & w & Ec & Ec' & Ei & Hsp).
    assert (Hnn : isnan sp = false).
    { destruct Hsp as (_ & _ & _ & _ & s & t & p & _ & E & _ & _ & _ & _ & [Fs _] & _). injection E as -> -> _.
      pose proof (finite_isfinite s Fs) as C. destruct s; [reflexivity|discriminate C|discriminate C|reflexivity]. }
    assert (Hcl : clean64 (sp, tp, pin_p) = (sp, tp, pin_p)) by exact (clean_sampled _ _ _ _ Hsp).
    destruct p_init as [p|sh p|]; cbn [starts_at64 M_omega.initial] in *; [| |destruct Hs].
    - subst p. rewrite (P_matsolve.np_get_ok _ _ _ Ec). cbn [bind]. rewrite Ei. cbn [bind fst snd].
      rewrite np_set_ok by (rewrite repeat_length; exact Hpin). cbn [bind]. set (x := upd _ _ _).
      assert (Lx : length x = N) by (unfold x; rewrite length_upd, repeat_length; reflexivity).
      assert (Hpx : nth_error x pin = Some (sp, tp, pin_p)) by (unfold x; apply nth_error_upd_eq; rewrite repeat_length; exact Hpin).
      assert (Hox : forall n b, n <> pin -> nth_error x n = Some b -> b = (nan, nan, nan)).
      { intros n b' Hn Hb. unfold x in Hb. rewrite nth_error_upd_neq in Hb by congruence. apply nth_error_In, repeat_spec in Hb. exact Hb. }
      destruct (good_surface x Lx) as [Hx _].
      { intros n b' c Hb Hc. destruct (Nat.eq_dec n pin) as [->|Hn].
        - rewrite Hpx in Hb. injection Hb as <-. rewrite Ec' in Hc. injection Hc as <-. right. right. exists v, w. exact Hsp.
        - left. exact (Hox n b' Hn Hb). }
      destruct (perim_run ml (junk 0%Z) (ITER_WET_PERIM o) x Hml (Hjunk _) Hx) as (D & y & E & Hy & Hnd & HD & Hk & Hr & Hq).
      rewrite E. cbn [bind fst snd]. exists y. split; [reflexivity|].
      assert (Hwp : wet_at x pin) by (apply pinned_wet64; exists sp, tp; exact Hpx).
      destruct (Hq Hwp) as [Hyp _]. rewrite Hpx in Hyp. pose proof (surface_len y Hy) as Ly.
      assert (Hre : forall n, reach (edge_rel edges) (wet_at x) pin n -> n = pin).
      { intros n [k W]. assert (Hw : wet_at x n) by (inversion W; assumption). destruct Hw as (s & t & p & E1 & Fp').
        destruct (Nat.eq_dec n pin) as [->|Hn]; [reflexivity|]. pose proof (f_equal snd (Hox n _ Hn E1)) as G. cbn [snd] in G. rewrite G in Fp'. discriminate Fp'. }
      assert (Hcase : forall n b, n <> pin -> nth_error y n = Some b -> b = (nan, nan, nan) \/ wetted64 rel rho (fval tol) e (2 * d') pm casts' (nbrs edges) y n).
      { intros n b' Hn Hb. destruct (in_dec Nat.eq_dec n D) as [Hi|Hi]; [right; exact (proj2 (HD n Hi))|left].
        pose proof (nth_error_lt _ _ _ Hb) as Hlt. destruct (nth_error x n) as [[[s t] p]|] eqn:Ex; [|apply nth_error_None in Ex; lia].
        pose proof (Hox n _ Hn Ex) as G. rewrite G in Ex.
        rewrite (Hr n nan nan nan (fun h => Hn (Hre n h)) Hi Ex) in Hb. injection Hb as <-. reflexivity. }
      assert (Hg : forall n b c, nth_error y n = Some b -> nth_error casts' n = Some c -> good c b).
      { intros n b' c Hb Hc. destruct (Nat.eq_dec n pin) as [->|Hn].
        - rewrite Hyp in Hb. injection Hb as <-. rewrite Ec' in Hc. injection Hc as <-. right. right. exists v, w. exact Hsp.
        - destruct (Hcase n b' Hn Hb) as [->|(c0 & ps & p & b0 & E0 & _ & E1 & _ & _ & _ & _ & G)]; [left; reflexivity|].
          rewrite Hc in E0. injection E0 as <-. rewrite Hb in E1. injection E1 as <-. right.
          destruct G as [(v' & w' & G)|[G _]]; [right; exists v', w'; exact G|left; exact G]. }
      assert (Lc : length (map clean64 y) = N) by (rewrite map_length; exact Ly).
      assert (Hcp : nth_error (map clean64 y) pin = Some (sp, tp, pin_p)) by (rewrite nth_error_map, Hyp; exact (f_equal Some Hcl)).
      destruct (good_surface (map clean64 y) Lc) as [Hsc Htc].
      { intros n b' c Hb Hc. rewrite nth_error_map in Hb. destruct (nth_error y n) as [b0|] eqn:Eb; [|discriminate Hb]. injection Hb as <-.
        apply clean_good. exact (Hg n b0 c Eb Hc). }
      split; [|split; [exact Hsc|split; [exact Htc|]]].
      + split; [rewrite castsN; exact Lc|]. split.
        * exists cp, sp, tp, v, w. split; [exact Ec'|]. split; [exact Hcp|exact Hsp].
        * exists y. split; [exact (masked_clean y)|exact Hcase].
      + exists sp, tp. split; [exact Hyp|]. split; [exact Hnn|exact Hcp].
    - destruct Hs as (-> & Lp & Hp & Fp). destruct list_eq_dec as [_|]; [|congruence]. rewrite (P_matsolve.np_get_ok _ _ _ Hp). cbn [bind].
      assert (Hcol : forall n q Sm Tm Pm, nth_error p n = Some q -> nth_error casts n = Some (Sm, Tm, Pm) ->
        exists c s t, nth_error casts' n = Some c /\ interp_two q Pm Sm Tm = Ok (s, t)
          /\ (((forall gS gT lo hi, profile rel c gS gT lo hi -> ~ inside64 q lo hi) /\ s = nan /\ t = nan)
              \/ ((exists gS gT lo hi, profile rel c gS gT lo hi /\ inside64 q lo hi) /\ exists v w, sampled rel e c (s, t, q) v w))).
      { intros n q Sm Tm Pm Hq Hc. destruct (cast_of s0 pm tol casts casts' fuel Hh Hcols n _ Hc) as (c & Hc' & _).
        destruct (interp_run n Sm Tm Pm c q Hc Hc' (proj1 (Forall_forall _ _) Fp q (nth_error_In _ _ Hq))) as [I1 I2].
        destruct (classic (exists gS gT lo hi, profile rel c gS gT lo hi /\ inside64 q lo hi)) as [(gS & gT & lo & hi & G1 & G2)|G].
        - destruct (I1 _ _ _ _ G1 G2) as (s & t & v' & w' & E & Hs'). exists c, s, t. split; [exact Hc'|]. split; [exact E|]. right.
          split; [exists gS, gT, lo, hi; split; [exact G1|exact G2]|exists v', w'; exact Hs'].
        - exists c, nan, nan. split; [exact Hc'|]. assert (G' : forall gS gT lo hi, profile rel c gS gT lo hi -> ~ inside64 q lo hi)
            by (intros gS gT lo hi G1 G2; apply G; exists gS, gT, lo, hi; split; [exact G1|exact G2]).
          split; [exact (I2 G')|]. left. split; [exact G'|]. split; reflexivity. }
      destruct (mapM_ok (fun pc => let '(p, (Sm, Tm, Pm)) := pc in let! st := interp_two p Pm Sm Tm in Ok (fst st, snd st, p)) (combine p casts)) as (x & Ex & Lx & Hx).
      { intros [q [[Sm Tm] Pm]] Hin. apply In_nth_error in Hin. destruct Hin as [n Hn]. rewrite nth_error_combine in Hn.
        destruct (nth_error p n) as [q'|] eqn:Eq; [|discriminate Hn]. destruct (nth_error casts n) as [c0|] eqn:Ec0; [|discriminate Hn]. injection Hn as -> ->.
        destruct (Hcol n q Sm Tm Pm Eq Ec0) as (c & s & t & _ & -> & _). cbn [bind]. eexists. reflexivity. }
      rewrite Ex. cbn [bind]. exists x. split; [reflexivity|].
      assert (Lx' : length x = N) by (rewrite Lx, combine_length; unfold N in *; lia).
      assert (Hpt : forall n q c, nth_error p n = Some q -> nth_error casts' n = Some c -> exists s t, nth_error x n = Some (s, t, q)
          /\ (((forall gS gT lo hi, profile rel c gS gT lo hi -> ~ inside64 q lo hi) /\ s = nan /\ t = nan)
              \/ ((exists gS gT lo hi, profile rel c gS gT lo hi /\ inside64 q lo hi) /\ exists v w, sampled rel e c (s, t, q) v w))).
      { intros n q c Hq Hc. pose proof (nth_error_lt _ _ _ Hc) as Hlt. rewrite castsN in Hlt.
        destruct (nth_error casts n) as [[[Sm Tm] Pm]|] eqn:Ec0; [|apply nth_error_None in Ec0; unfold N in *; lia].
        destruct (Hcol n q Sm Tm Pm Hq Ec0) as (c0 & s & t & Hc0 & E & Hcs). rewrite Hc in Hc0. injection Hc0 as <-.
        destruct (Hx n (q, (Sm, Tm, Pm))) as (b' & Hb' & Eb). { rewrite nth_error_combine, Hq, Ec0. reflexivity. }
        cbv beta iota in Eb. rewrite E in Eb. cbn [bind fst snd] in Eb. exists s, t. split; [rewrite Hb'; congruence|exact Hcs]. }
      assert (Lc : length (map clean64 x) = N) by (rewrite map_length; exact Lx').
      destruct (good_surface (map clean64 x) Lc) as [Hsc Htc].
      { intros n b' c Hb Hc. pose proof (nth_error_lt _ _ _ Hc) as Hlt. rewrite castsN in Hlt.
        destruct (nth_error p n) as [q|] eqn:Eq; [|apply nth_error_None in Eq; lia].
        destruct (Hpt n q c Eq Hc) as (s & t & Hxn & Hcs). rewrite nth_error_map, Hxn in Hb. cbn [option_map] in Hb. injection Hb as <-.
        destruct Hcs as [(_ & -> & ->)|(_ & v' & w' & G)]; [left; reflexivity|]. apply clean_good. right. right. exists v', w'. exact G. }
      split; [|split; [exact Hsc|split; [exact Htc|]]].
      + split; [rewrite castsN; exact Lc|]. intros n q c Hq Hc. destruct (Hpt n q c Hq Hc) as (s & t & Hxn & Hcs). rewrite nth_error_map, Hxn. cbn [option_map].
        destruct Hcs as [(Hno & -> & ->)|((gS0 & gT0 & lo0 & hi0 & P1 & P2) & v' & w' & G)]; split.
        * intros gS gT lo hi G1 G2. elim (Hno _ _ _ _ G1 G2).
        * reflexivity.
        * intros _ _ _ _ _ _. exists s, t, v', w'. split; [exact (f_equal Some (clean_sampled _ _ _ _ G))|exact G].
        * intros Hno. elim (Hno _ _ _ _ P1 P2).
      + destruct (Hpt pin pin_p cp Hp Ec') as (s & t & Hxn & _).
        destruct (Hx pin (pin_p, (Sp, Tp, Pp))) as (b' & Hb' & Eb). { rewrite nth_error_combine, Hp, Ec. reflexivity. }
        cbv beta iota in Eb. rewrite Ei in Eb. cbn [bind fst snd] in Eb. assert (b' = (sp, tp, pin_p)) by congruence. subst b'.
        exists sp, tp. split; [exact Hb'|]. split; [exact Hnn|]. rewrite nth_error_map, Hb'. exact (f_equal Some Hcl).
  Qed.

  (** ** the driver *)
  Variables (junk_p junk_i : list nat) (p_init : @pinit f64) (p_ml : option (list f64)) (dr0 : @geom f64) (v0 : f64).
  Hypothesis Hec : edges_to_csr junk_p junk_i edges (Some N) = Ok (ip, ix).
  Hypothesis Hdr0 : gdiv g_perp g_dist = Ok dr0.
  Hypothesis Hdr : dr = match f with FPoisson => dr0 | FGradient => geom_sqrt dr0 end.
  Hypothesis Hv0 : eos (lit 345 (-1)) (lit 3 0) (lit 1000 0) = Ok v0.
  Hypothesis Hmax : o_diags o = true -> (0 < ITER_MAX o)%Z.
  Hypothesis Hmlof : ml = ml_of casts p_ml.
  Hypothesis Hstart : starts_at64 surf_shape N pin pin_p p_init.

  Lemma drive : exists x dd its x0,
    omega_surf eos eos_s_t ppc_fn interp_two spsolve lsqr fuel loop_fuel junk junk_p junk_i surf_shape casts (Some edges) (Some g_dist) (Some g_perp) pin o p_init p_ml
      = Ok (x, dd, its)
    /\ (dd = None <-> o_diags o = false)
    /\ initial64 rel rho (fval tol) e (2 * d') pm casts' edges pin pin_p p_init x0
    /\ run o (P_omega.tolerance o v0) ml pin pin_p x0 its x
    /\ surface x
    /\ (exists s t, nth_error x pin = Some (s, t, pin_p))
    /\ (forall k r, nth_error its k = Some r -> step (S k) r)
    /\ (forall q, dd = Some q -> describes (fun y => norms y) x0 its q)
    /\ forall y, y = x0 \/ (exists k r, nth_error its k = Some r /\ y = i_out r) -> exists rms mav, norms y = Ok (rms, mav) /\ norms_of y rms mav.
  Proof.
    destruct (initial_run p_init Hstart) as (x00 & Ei & Hi & Hs & Ht & s1 & t1 & Hp & Hn & Hp').
    set (x0 := map clean64 x00) in *.
    assert (Hpx : pinned x0) by (exists s1, t1; exact Hp').
    set (dg0 := if o_diags o then
          let! e := ntp_epsilon_errors_norms eos_s_t x0 (GDict (Some edges) (Some g_dist) (Some g_perp)) in
          let! e_RMS := np_set (d_e_RMS (empty_diags o)) 0 (fst e) in
          let! e_MAV := np_set (d_e_MAV (empty_diags o)) 0 (snd e) in
          let! n_wet := np_set (d_n_wet (empty_diags o)) 0 (n_finite x0) in
          Ok (mkDiag e_MAV e_RMS (d_phi_MAV (empty_diags o)) (d_dp_MAV (empty_diags o)) (d_dp_RMS (empty_diags o)) (d_dp_Linf (empty_diags o))
                n_wet (d_n_newly_wet (empty_diags o)))
        else Ok (empty_diags o)).
    assert (Hdg : exists dg, dg0 = Ok dg /\ (o_diags o = true -> dlength dg (Z.to_nat (ITER_MAX o + 1)) /\ (1 + Z.to_nat (ITER_MAX o) <= Z.to_nat (ITER_MAX o + 1))%nat)).
    { unfold dg0. destruct (o_diags o) eqn:Ed; [|eexists; split; [reflexivity|discriminate]]. specialize (Hmax eq_refl).
      destruct (norms_run x0 (surface_len x0 Hs) Ht) as (rms & mav & En & _). rewrite En. cbn [bind fst snd].
      repeat (rewrite np_set_ok by (cbn; rewrite ?length_upd, repeat_length; lia); cbn [bind]).
      eexists. split; [reflexivity|]. intros _. split; [|lia]. unfold dlength. cbn. rewrite ?length_upd, !repeat_length. auto 10. }
    destruct Hdg as (dg & Edg & Hdg).
    destruct (iterate_ok64 (P_omega.tolerance o v0) (Z.to_nat (ITER_MAX o + 1)) (Z.to_nat (ITER_MAX o)) 1 x0 (lit 0 0) dg Hs Hpx Ht Hdg) as (its & y & dg' & Eit & H1 & H2 & H3 & H4).
    assert (E : exists dd, omega_surf eos eos_s_t ppc_fn interp_two spsolve lsqr fuel loop_fuel junk junk_p junk_i surf_shape casts (Some edges) (Some g_dist) (Some g_perp) pin o p_init p_ml
      = Ok (y, dd, its) /\ (dd = None <-> o_diags o = false)).
    { unfold omega_surf. cbn [key bind]. rewrite Hdr0. cbn [bind]. fold (ml_of casts p_ml). rewrite <- Hmlof. fold N. rewrite Hec. cbn [bind].
      set (fd := if String.eqb (lower (OMEGA_FORMULATION o)) "poisson" then _ else _).
      assert (Hfd : fd = Ok (f, dr)).
      { unfold fd. rewrite Hdr. unfold asked in Hasked. destruct f; [rewrite (spells_lower _ _ Hasked poisson_small)|rewrite (spells_lower _ _ Hasked gradient_small)]; reflexivity. }
      rewrite Hfd. cbn [bind]. rewrite Hv0. cbn [bind]. fold (P_omega.tolerance o v0).
      assert (Hneg : (o_diags o && (ITER_MAX o + 1 <? 0)%Z)%bool = false).
      { destruct (o_diags o); [|reflexivity]. cbn. apply Z.ltb_ge. specialize (Hmax eq_refl). lia. }
      rewrite Hneg. cbn [bind]. rewrite Ei. cbn [bind]. rewrite (P_matsolve.np_get_ok _ _ _ Hp). cbn [bind fst snd]. rewrite Hn.
      change (map (fun x : bottle64 => if isnan (fst (fst x)) then (fst (fst x), snd (fst x), nan) else x) x00) with x0.
      fold dg0. rewrite Edg. cbn [bind]. rewrite Eit. cbn [bind]. destruct (o_diags o) eqn:Ed.
      - specialize (Hmax eq_refl). destruct its as [|r0 its]; [exfalso; apply H4; [lia|reflexivity]|]. cbn [length trim bind].
        eexists. split; [reflexivity|]. split; discriminate.
      - exists None. split; [reflexivity|]. tauto. }
    destruct E as (dd & E & Hdd). exists y, dd, its, x0.
    split; [exact E|]. split; [exact Hdd|]. split; [exact Hi|].
    destruct (omega_run_from _ _ _ _ _ _ _ _ _ _ _ _ _ _ _ _ _ _ _ _ _ _ _ E) as (v' & x0' & pin_p' & edges' & ip' & ix' & x00' & Ev & Eg & Ec & Ei' & Ex0 & Hr).
    rewrite Hv0 in Ev. injection Ev as <-. injection Eg as <-. fold N in Ec. rewrite Hec in Ec. injection Ec as <- <-. rewrite <- Hmlof in Ei', Hr.
    rewrite Ei in Ei'. assert (Ea : x00 = x00' /\ pin_p = pin_p') by (split; congruence). destruct Ea as [<- <-].
    assert (Eb : x0' = x0) by (rewrite Ex0; reflexivity). rewrite Eb in Hr.
    split; [exact Hr|]. split; [exact H2|]. split; [exact H3|].
    split; [intros k r Hk; exact (proj1 (H1 k r Hk))|]. split.
    - intros q ->. destruct (omega_diagnostics _ _ _ _ _ _ _ _ _ _ _ _ _ _ _ _ _ _ _ _ _ _ _ E) as (x0'' & Hf & HD).
      assert (Hod : o_diags o = true) by (destruct (o_diags o); [reflexivity|destruct Hdd as [_ C]; discriminate (C eq_refl)]).
      pose proof (run_some _ _ _ _ _ _ _ _ Hr (Hmax Hod)) as Hne. destruct its as [|r0 its']; [elim Hne; reflexivity|].
      rewrite <- (Hf r0 eq_refl), (run_first _ _ _ _ _ _ _ _ Hr r0 eq_refl) in HD. exact HD.
    - intros z [->|(k & r & Hk & ->)]; [exact (norms_run x0 (surface_len x0 Hs) Ht)|]. destruct (H1 k r Hk) as (_ & L & T). exact (norms_run _ L T).
  Qed.
End Run.
