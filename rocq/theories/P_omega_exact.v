(** * The omega driver in exact arithmetic *)
From Coq Require Import String ZArith List Bool Lia Reals Lra Permutation.
From Verif Require Import Num XR Res Arr ArrLemmas NdLemmas XRlemmas M_graph M_lib M_ppinterp M_traj M_bfs M_ntp M_matsolve M_vertsolve
  M_omega S_graph S_interp S_traj S_vertsolve S_wet S_lib S_ntp S_matsolve S_omega
  P_domain P_csr P_bfs P_perim P_wet_exact P_ntp P_matsolve P_matsolve2 P_vertsolve P_omega P_case.
Import ListNotations.
Local Open Scope R_scope.

(** ** means *)
Lemma numbers_sum l : Forall number_or_nan l -> sums_to l (Rsum (numbers l)).
Proof.
  induction l as [|x l IH]; intros H; [constructor|]. inversion H as [|? ? [->|(r & ->)] Hl]; subst.
  - cbn. constructor. apply IH. assumption.
  - cbn. constructor. apply IH. assumption.
Qed.
Lemma numbers_count l : Forall number_or_nan l -> length (filter (fun x : xr => negb (isnan x)) l) = length (numbers l).
Proof.
  induction l as [|x l IH]; intros H; [reflexivity|]. inversion H as [|? ? [->|(r & ->)] Hl]; subst; [exact (IH Hl)|exact (f_equal S (IH Hl))].
Qed.
Lemma of_nat_fin n : (of_nat n : xr) = Fin (INR n).
Proof. unfold of_nat, of_Z. cbn. f_equal. rewrite <- INR_IZR_INZ. ring. Qed.
Lemma nanmean_numbers l : Forall number_or_nan l -> numbers l <> [] -> nanmean l = Fin (mean (numbers l)).
Proof.
  intros H Hne. unfold nanmean. rewrite (nansum_sums _ _ (numbers_sum l H)), numbers_count by assumption.
  rewrite of_nat_fin. cbn [div xrNum]. apply xr_div_fin. apply not_0_INR. destruct (numbers l); [congruence|discriminate].
Qed.
Lemma numbers_abs l : numbers (map fabs l) = map Rabs (numbers l).
Proof. induction l as [|[r| | |] l IH]; [reflexivity|exact (f_equal (cons (Rabs r)) IH)|exact IH..]. Qed.
Lemma numbers_sqr l : Forall number_or_nan l -> numbers (map (fun x : xr => mul x x) l) = map (fun x => x * x) (numbers l).
Proof.
  induction l as [|x l IH]; intros H; [reflexivity|]. inversion H as [|? ? [->|(r & ->)] Hl]; subst; [exact (IH Hl)|exact (f_equal (cons (r * r)) (IH Hl))].
Qed.
Lemma numbers_in l r : In r (numbers l) <-> In (Fin r) l.
Proof.
  unfold numbers. rewrite in_flat_map. split.
  - intros ([x| | |] & H & Hx); try destruct Hx as [->|[]]; try destruct Hx. assumption.
  - intros H. exists (Fin r). split; [assumption|left; reflexivity].
Qed.
Lemma number_or_nan_abs l : Forall number_or_nan l -> Forall number_or_nan (map fabs l).
Proof.
  intros H. apply Forall_map. eapply Forall_impl; [|exact H]. intros x [->|(r & ->)]; [left; reflexivity|right; eexists; reflexivity].
Qed.
Lemma number_or_nan_sqr l : Forall number_or_nan l -> Forall number_or_nan (map (fun x : xr => mul x x) l).
Proof.
  intros H. apply Forall_map. eapply Forall_impl; [|exact H]. intros x [->|(r & ->)]; [left; reflexivity|right; eexists; reflexivity].
Qed.
Lemma changes_numbers : forall (x y : list bottle), Forall (fun b => number_or_nan (snd b)) x -> Forall (fun b => number_or_nan (snd b)) y ->
  Forall number_or_nan (p_change x y) /\ numbers (p_change x y) = changes x y.
Proof.
  induction x as [|[[s t] p] x IH]; intros [|[[s' t'] p'] y] Hx Hy; try (split; [constructor|reflexivity]).
  inversion Hx as [|? ? Hp Hx']; subst. inversion Hy as [|? ? Hp' Hy']; subst. destruct (IH y Hx' Hy') as [H1 H2]. cbn [snd] in *.
  unfold p_change, changes in *. cbn [combine map flat_map fst snd].
  destruct Hp as [->|(r & ->)], Hp' as [->|(r' & ->)]; (split; [constructor; [|exact H1]|first [exact H2|exact (f_equal (cons (r' - r)) H2)]]);
    try (left; reflexivity); right; eexists; reflexivity.
Qed.

Lemma insert_in x y q : In x (insert_nat y q) <-> y = x \/ In x q.
Proof. induction q as [|z q IH]; cbn; [tauto|]. destruct (Nat.leb y z); cbn; [tauto|]. rewrite IH. tauto. Qed.
Lemma sort_in x l : In x (sort_nat l) <-> In x l.
Proof. induction l as [|y l IH]; [reflexivity|]. cbn. rewrite insert_in, IH. reflexivity. Qed.
Lemma insert_nodup x l : NoDup l -> ~ In x l -> NoDup (insert_nat x l).
Proof.
  induction l as [|y l IH]; intros Hn Hx; [constructor; [intros []|constructor]|]. cbn. destruct (Nat.leb x y); [constructor; assumption|].
  inversion Hn as [|? ? Hy Hl]; subst. constructor.
  - rewrite insert_in. intros [->|H]; [apply Hx; left; reflexivity|contradiction].
  - apply IH; [assumption|]. intros H. apply Hx. right. assumption.
Qed.
Lemma sort_nodup l : NoDup l -> NoDup (sort_nat l).
Proof.
  induction l as [|x l IH]; intros H; [constructor|]. inversion H; subst. cbn. apply insert_nodup; [auto|]. rewrite sort_in. assumption.
Qed.

Lemma finite_nodes_in (x : list bottle) n : In n (finite_nodes x) <-> wet_at x n.
Proof.
  unfold finite_nodes. rewrite filter_In, in_seq. split.
  - intros [Hn H]. destruct (nth_error x n) as [[[s t] p]|] eqn:E; [|discriminate]. exists s, t, p. auto.
  - intros (s & t & p & E & H). pose proof (nth_error_lt _ _ _ E). rewrite E. split; [lia|assumption].
Qed.
Lemma finite_nodes_nodup (x : list bottle) : NoDup (finite_nodes x).
Proof. apply NoDup_filter, seq_NoDup. Qed.

Section Exact.
  Variables (D : domain) (eos : xr -> xr -> xr -> res xr) (rho : R -> R -> R -> R).
  Hypothesis Heos : eos_on D eos rho.
  Variables (eos_s_t : xr -> xr -> xr -> res (xr * xr)) (rs rt : R -> R -> R -> R).
  Hypothesis Hst : eos_s_t_on D eos_s_t rs rt.
  Hypothesis Hst_nan : nan_safe eos_s_t.
  Variables (ppc_fn : list xr -> list xr -> res (list (list xr))).
  Variable rel : nat -> (nat -> R) -> (nat -> R) -> (R -> R) -> Prop.
  Hypothesis Hppc : interpolator ppc_fn rel.
  Variable interp_two : xr -> list xr -> list xr -> list xr -> res (xr * xr).
  Hypothesis Hint : column_interp rel interp_two.
  Variable spsolve : nat -> (nat -> nat -> xr) -> list xr -> list xr.
  Variable lsqr : nat -> nat -> (nat -> nat -> xr) -> list xr -> list xr.
  Hypothesis Hsp : exact_spsolve spsolve.
  Hypothesis Hls : exact_lsqr lsqr.
  Variables (fuel loop_fuel : nat) (junk : Z -> list nat) (junk_p junk_i : list nat) (surf_shape : list nat).
  Variable casts : list column.
  Variables (edges : list (nat * nat)) (g_dist g_distperp : @geom xr) (d_dist d_perp : list R).
  Variables (pin : nat) (o : @options xr) (tol : R).
  Let N := length casts.
  Hypothesis Htol : 0 < tol.
  Hypothesis Ho : TOL_P_SOLVER o = Fin tol.
  Hypothesis Hcasts : forall c, In c casts -> any_cast c /\ cast_in D c /\ enough_fuel fuel tol c.
  Hypothesis Hext : Forall same_extent casts.
  Hypothesis Hlf : (N < loop_fuel)%nat.
  Hypothesis Hjunk : forall k, (N <= length (junk k))%nat.
  Hypothesis Hjp : (N < length junk_p)%nat.
  Hypothesis Hji : (2 * length edges <= length junk_i)%nat.
  Hypothesis Hedges : in_range edges N.
  Hypothesis Hne : edges <> [].
  Hypothesis Hdist : distances g_dist (length edges) d_dist.
  Hypothesis Hperp : distances g_distperp (length edges) d_perp.
  Hypothesis Hdpos : Forall (fun x => 0 < x) d_dist.
  Hypothesis Hppos : Forall (fun x => 0 < x) d_perp.
  Hypothesis Hpin : (pin < N)%nat.

  Definition weight : list R := weights d_dist d_perp.
  Lemma weight_length : length weight = length edges.
  Proof. unfold weight, weights. destruct Hdist as [L1 _], Hperp as [L2 _]. rewrite map_length, combine_length. lia. Qed.
  Lemma weight_pos : Forall (fun x => 0 < x) weight.
  Proof.
    unfold weight, weights. apply Forall_map. apply Forall_forall. intros [w d] Hin. cbn.
    rewrite Forall_forall in Hdpos, Hppos. apply Rdiv_lt_0_compat; [eapply Hppos, in_combine_l, Hin|eapply Hdpos, in_combine_r, Hin].
  Qed.

  Notation surface := (surface rel casts).

  Lemma on_cast_finite3 c b : on_cast rel c b -> exists s t p, b = (Fin s, Fin t, Fin p).
  Proof. intros (gS & gT & lo & hi & r & _ & _ & ->). exists (gS r), (gT r), r. reflexivity. Qed.
  Lemma on_cast_in c b : In c casts -> on_cast rel c b -> bottle_in D b.
  Proof.
    intros Hc (gS & gT & lo & hi & r & Hpr & Hr & ->). exists (gS r), (gT r), r. split; [reflexivity|].
    apply (profile_in D rel c gS gT lo hi); [apply Hcasts; assumption|assumption|assumption].
  Qed.
  Lemma surface_in x : surface x -> forall n b, wet_at x n -> nth_error x n = Some b -> bottle_in D b.
  Proof.
    intros [L H] n b (s & t & p & E & Hf) Hb. rewrite E in Hb. injection Hb as <-.
    destruct (nth_error casts n) as [c|] eqn:Ec; [|apply nth_error_None in Ec; apply nth_error_lt in E; lia].
    destruct (H _ _ _ E Ec) as [Hn|Hc]; [cbn in Hn; subst p; discriminate|]. apply (on_cast_in c); [eapply nth_error_In; exact Ec|assumption].
  Qed.
  Lemma surface_numbers x : surface x -> Forall (fun b => number_or_nan (snd b)) x.
  Proof.
    intros [L H]. apply Forall_forall. intros b Hb. apply In_nth_error in Hb. destruct Hb as [n Hn].
    destruct (nth_error casts n) as [c|] eqn:Ec; [|apply nth_error_None in Ec; apply nth_error_lt in Hn; lia].
    destruct (H _ _ _ Hn Ec) as [E|Hc]; [left; assumption|]. destruct (on_cast_finite3 _ _ Hc) as (s & t & p & ->). right. exists p. reflexivity.
  Qed.

  (** ** the graph *)
  Variables (ip ix : list nat).
  Hypothesis Hcsr : csr N ip ix.
  Hypothesis Hadj : forall m n, (m < N)%nat -> (adj ip ix m n <-> In (m, n) edges \/ In (n, m) edges).

  Lemma reach_edges (ok : nat -> Prop) n : (forall m, ok m -> (m < N)%nat) ->
    reach (adj ip ix) ok pin n <-> reach (edge_rel edges) ok pin n.
  Proof.
    intros Hok. split; intros [k HW]; exists k; induction HW as [Hw|k m n' HW IH Hmn Hw]; try (constructor; assumption).
    - econstructor; [exact IH| |assumption]. apply Hadj; [|assumption]. apply Hok. inversion HW; assumption.
    - econstructor; [exact IH| |assumption]. apply Hadj; [|assumption]. apply Hok. inversion HW; assumption.
  Qed.
  Lemma wet_lt (x : list bottle) n : length x = N -> wet_at x n -> (n < N)%nat.
  Proof. intros L (s & t & p & E & _). apply nth_error_lt in E. lia. Qed.

  Lemma casts_len Sm Tm Pm : In (Sm, Tm, Pm) casts -> (length Sm <= length Pm)%nat.
  Proof. intros H. apply (any_cast_len (Sm, Tm, Pm)). apply Hcasts. assumption. Qed.

  (** the perimeter search *)
  Lemma perim_ok ml jk n_rep x : length ml = N -> (N <= length jk)%nat -> surface x ->
    exists r, bfs_conncomp1_wet_perim eos ppc_fn fuel casts (Fin tol) ml loop_fuel jk ip ix pin n_rep x = Ok r
      /\ surface (snd r)
      /\ (wet_at x pin -> nth_error (snd r) pin = nth_error x pin
            /\ forall n, wet_at (snd r) n <-> reach (adj ip ix) (wet_at (snd r)) pin n).
  Proof.
    intros Hml Hjk Hx. pose proof (surface_in x Hx) as Hfin. destruct Hx as [Lx Hx].
    destruct (bfs_wet_perim_total D eos rho Heos ppc_fn rel Hppc casts tol ml fuel N ip ix pin x Hcsr eq_refl Hml Lx Htol Hcasts Hfin
                jk n_rep loop_fuel Hpin Hjk Hlf) as ([new y] & E).
    exists (new, y). split; [assumption|]. cbn [snd].
    pose proof (bfs_wet_perim_correct eos ppc_fn fuel casts (Fin tol) ml N ip ix pin x Hcsr eq_refl Hml Lx casts_len eq_refl (bottle_in D)
      (perim_closed D eos rho Heos ppc_fn rel Hppc casts tol ml fuel N ip ix x eq_refl Hml Lx Htol Hcasts Hfin) jk n_rep Hpin Hjk loop_fuel Hlf) as H.
    cbv zeta in H. rewrite E in H. cbn [okor] in H. destruct H as (E0 & _ & _ & Ly & Hkeep & Hrest & HD & _ & _ & Hok).
    assert (HDon : forall n b c, In n E0 -> nth_error y n = Some b -> nth_error casts n = Some c -> on_cast rel c b).
    { intros n b c HnD Hb Hc. destruct (HD n HnD) as (_ & _ & _ & Pm & Sppc & Tppc & ps & s & t & p & H1 & H2 & H3 & H4 & H5 & H6 & _).
      rewrite Hb in H5. injection H5 as ->.
      destruct (mean_fin D eos rho Heos ppc_fn rel Hppc casts tol ml fuel N x eq_refl Hml Lx Htol Hcasts n (length ps) Pm Sppc Tppc p H1) as (c' & gS & gT & lo & hi & r & Hc' & Hpr & Hr & -> & Ev & _).
      { exists (map snd ps). split; [destruct ps; [congruence|discriminate]|]. split; [rewrite map_length; apply le_n|]. split.
        - intros q Hq. apply in_map_iff in Hq. destruct Hq as ([n' q'] & <- & Hin). cbn [snd].
          destruct (H6 _ _ Hin) as ((Pm' & Sppc' & Tppc' & s' & t' & p' & G1 & G2 & G3 & G4) & (m' & _ & Hf & _)).
          split; [assumption|]. exists s', t', p'. split; [apply (Hok n'); assumption|]. split; [assumption|].
          destruct (cast_ppc_fun ppc_fn casts _ _ _ _ _ _ _ H1 G1) as (-> & -> & ->). assumption.
        - rewrite map_length. exact H3. }
      rewrite Hc in Hc'. injection Hc' as <-. rewrite H4 in Ev. injection Ev as -> ->. exists gS, gT, lo, hi, r. auto. }
    assert (Hdec : forall n, (n < N)%nat -> reach (adj ip ix) (wet_at x) pin n \/ In n E0
                     \/ exists b, nth_error y n = Some b /\ snd b = NaN).
    { intros n Hn. destruct (in_dec Nat.eq_dec n E0) as [|HnD]; [auto|].
      destruct (nth_error x n) as [[[s t] p]|] eqn:Ex; [|apply nth_error_None in Ex; lia].
      destruct (nth_error y n) as [b|] eqn:Ey; [|apply nth_error_None in Ey; lia].
      destruct (bfs_component N ip ix pin (map (fun b : bottle => isfinite (snd b)) x) jk Hcsr) as (qu & good' & _ & _ & Hqu & _);
        [rewrite map_length; assumption|assumption|assumption|].
      assert (Hm : forall m, mask (map (fun b : bottle => isfinite (snd b)) x) m <-> wet_at x m).
      { intros m. unfold mask, wet_at. rewrite nth_error_map. split.
        - destruct (nth_error x m) as [[[s' t'] p']|]; cbn; [|discriminate]. intros G. injection G as G. exists s', t', p'. auto.
        - intros (s' & t' & p' & -> & G). exact (f_equal Some G). }
      destruct (in_dec Nat.eq_dec n qu) as [Hq|Hq].
      - left. apply Hqu in Hq. eapply reach_mono; [|exact Hq]. intros m. apply Hm.
      - right. right. exists b. split; [reflexivity|]. assert (HC : ~ reach (adj ip ix) (wet_at x) pin n).
        { intros G. apply Hq, Hqu. eapply reach_mono; [|exact G]. intros m. apply Hm. }
        pose proof (Hrest n s t p HC HnD Ex) as G. rewrite Ey in G. injection G as ->. reflexivity. }
    split.
    - split; [assumption|]. intros n b c Hb Hc. destruct (Hdec n) as [HC|[HnD|(b' & Hb' & Hn)]].
      + apply nth_error_lt in Hc. exact Hc.
      + apply (Hx n); [|assumption]. rewrite <- Hkeep; assumption.
      + right. apply (HDon n); assumption.
      + left. congruence.
    - intros Hw. assert (HCpin : reach (adj ip ix) (wet_at x) pin pin) by (exists 0%nat; constructor; assumption).
      split; [apply Hkeep; assumption|].
      assert (HCwet : forall n, reach (adj ip ix) (wet_at x) pin n -> wet_at y n).
      { intros n HC. assert (G : wet_at x n) by (destruct HC as [k W]; inversion W; assumption).
        destruct G as (s & t & p & G1 & G2). exists s, t, p. rewrite Hkeep by assumption. auto. }
      assert (HDwet : forall n, In n E0 -> wet_at y n).
      { intros n HnD. destruct (HD n HnD) as (Hn & _). destruct (nth_error y n) as [b|] eqn:Ey; [|apply nth_error_None in Ey; lia].
        destruct (nth_error casts n) as [c|] eqn:Ec; [|apply nth_error_None in Ec; unfold N in *; lia].
        destruct (on_cast_finite3 _ _ (HDon n b c HnD Ey Ec)) as (s & t & p & ->). exists (Fin s), (Fin t), (Fin p). auto. }
      intros n. split; [|intros [k W]; inversion W; assumption].
      intros Hwn. destruct (Hdec n) as [HC|[HnD|(b' & Hb' & Hn)]].
      + apply (wet_lt y); assumption.
      + apply reach_in_reach in HC. eapply reach_mono; [|exact HC]. exact HCwet.
      + destruct (HD n HnD) as (_ & _ & Hr & _). eapply reach_mono; [|exact Hr]. cbn. intros m [G|G]; auto.
      + destruct Hwn as (s & t & p & G1 & G2). rewrite Hb' in G1. injection G1 as ->. cbn in Hn. subst p. discriminate.
  Qed.

  Notation search := (search eos ppc_fn fuel loop_fuel junk casts pin o).
  Lemma search_ok ml k x : length ml = N -> surface x -> wet_at x pin ->
    exists new y qu, search ml ip ix k x = Ok (new, y, qu) /\ surface y /\ nth_error y pin = nth_error x pin
      /\ NoDup qu /\ forall n, In n qu <-> reach (edge_rel edges) (wet_at y) pin n.
  Proof.
    intros Hml Hx Hw. unfold M_omega.search. rewrite Ho. destruct (_ && _).
    - destruct (perim_ok ml (junk k) (ITER_WET_PERIM o) x Hml (Hjunk k) Hx) as ([new y] & E & Hy & Hq). rewrite E. cbn [bind fst snd] in *.
      destruct (Hq Hw) as [H1 H2]. exists new, y, (finite_nodes y). split; [reflexivity|]. split; [assumption|]. split; [assumption|].
      split; [apply finite_nodes_nodup|]. intros n. rewrite finite_nodes_in, H2. apply reach_edges. intros m. apply wet_lt, Hy.
    - pose proof Hx as [Lx _].
      destruct (bfs_component N ip ix pin (map (fun b : bottle => isfinite (snd b)) x) (junk k) Hcsr) as (qu & good' & E & Hnd & Hqu & _);
        [rewrite map_length; assumption|assumption|apply Hjunk|].
      rewrite (E loop_fuel Hlf). cbn [bind fst]. exists 0%nat, x, (sort_nat qu). split; [reflexivity|]. split; [assumption|].
      split; [reflexivity|]. split; [apply sort_nodup; assumption|]. intros n. rewrite sort_in, Hqu.
      rewrite <- reach_edges by (intros m; apply wet_lt, Lx).
      assert (Hm : forall m, mask (map (fun b : bottle => isfinite (snd b)) x) m <-> wet_at x m).
      { intros m. unfold mask, wet_at. rewrite nth_error_map. split.
        - destruct (nth_error x m) as [[[s' t'] p']|]; cbn; [|discriminate]. intros G. injection G as G. exists s', t', p'. auto.
        - intros (s' & t' & p' & -> & G). exact (f_equal Some G). }
      split; apply reach_mono; intros m; apply Hm.
  Qed.

  (** the water of a surface *)
  Definition water (x : list bottle) (n : nat) : R * R * R :=
    match nth_error x n with Some (Fin s, Fin t, Fin p) => (s, t, p) | _ => (0, 0, 0) end.

  Lemma region_ok x qu : surface x -> wet_at x pin -> NoDup qu ->
    (forall n, In n qu <-> reach (edge_rel edges) (wet_at x) pin n) -> region x edges weight qu pin (water x).
  Proof.
    intros Hx Hw Hnd Hq. pose proof Hx as [Lx _]. constructor.
    - rewrite Lx. exact Hedges.
    - split; [apply weight_length|]. eapply Forall_impl; [|exact weight_pos]. intros. cbn in *. lra.
    - split; [assumption|]. apply Hq. exists 0%nat. constructor. assumption.
    - intros i Hi. apply Hq in Hi. assert (Hwi : wet_at x i) by (destruct Hi as [k W]; inversion W; assumption).
      destruct Hwi as (s & t & p & E & Hf). destruct (surface_in x Hx i _ (ex_intro _ s (ex_intro _ t (ex_intro _ p (conj E Hf)))) E) as (s' & t' & p' & Eb & _).
      exists (s, t, p). split; [assumption|]. unfold water. rewrite E. injection Eb as -> -> ->. reflexivity.
    - intros i Hi. apply Hq in Hi. apply reach_in_reach in Hi. destruct Hi as [k W]. exists k.
      induction W as [Hw'|k m n W IH Hmn Hn].
      + constructor. apply Hq. assumption.
      + econstructor; [exact IH| |apply Hq; assumption].
        assert (G : exists e, In e edges /\ joins e m n) by (destruct Hmn as [G|G]; [exists (m, n)|exists (n, m)]; split; trivial; [left|right]; reflexivity).
        destruct G as (e & Hin & Hj). apply In_nth_error in Hin. destruct Hin as [j Ej].
        destruct (nth_error weight j) as [f|] eqn:Ef; [|apply nth_error_None in Ef; rewrite weight_length in Ef; apply nth_error_lt in Ej; lia].
        exists j, e, f. split; [assumption|]. split; [assumption|]. split; [|assumption].
        apply nth_error_In in Ef. pose proof weight_pos as G. rewrite Forall_forall in G. apply G. assumption.
  Qed.

  Lemma water_ok x qu : surface x -> (forall n, In n qu <-> reach (edge_rel edges) (wet_at x) pin n) ->
    forall i, In i qu -> water_in D (water x i).
  Proof.
    intros Hx Hq i Hi. apply Hq in Hi. assert (Hwi : wet_at x i) by (destruct Hi as [k W]; inversion W; assumption).
    pose proof Hwi as (s & t & p & E & _). destruct (surface_in x Hx i _ Hwi E) as (s' & t' & p' & Eb & H).
    injection Eb as -> -> ->. unfold water. rewrite E. exact H.
  Qed.

  Definition ratio_for (f : formulation) (dr : @geom xr) : Prop :=
    match f with
    | FPoisson => distances dr (length edges) weight
    | FGradient => distances dr (length edges) (map sqrt weight)
    end.

  Lemma solver_ok f dr x qu w : ratio_for f dr -> region x edges weight qu pin w -> (forall i, In i qu -> water_in D (w i)) ->
    exists phi, global_solver eos_s_t spsolve lsqr f x edges dr qu pin = Ok phi
      /\ least_squares (length x) qu pin (objective edges weight qu (fun a b => water_error rs rt (w a) (w b))) phi.
  Proof.
    intros Hr Hreg Hwat. destruct f; cbn [global_solver ratio_for] in *.
    - apply (poisson_correct eos_s_t rs rt D Hst x edges weight qu pin w Hreg Hwat spsolve dr Hsp Hr).
    - apply (gradient_correct eos_s_t rs rt D Hst x edges weight qu pin w Hreg Hwat lsqr dr Hls Hr).
  Qed.

  (** ** one iteration *)
  Variable pp : R.
  Definition pinned (x : list bottle) : Prop := exists s t, nth_error x pin = Some (Fin s, Fin t, Fin pp).
  Lemma pinned_wet x : pinned x -> wet_at x pin.
  Proof. intros (s & t & E). exists (Fin s), (Fin t), (Fin pp). auto. Qed.

  Variable ml : list xr.
  Hypothesis Hml : length ml = N.
  Hypothesis Hml_pin : forall m, nth_error ml pin = Some m -> ltb (Fin pp) m = false.

  Lemma cut_ok x : surface x -> pinned x -> exists y, remove_ml ml x = Ok y /\ surface y /\ pinned y.
  Proof.
    intros [Lx Hx] (s & t & Hp). unfold remove_ml. replace (Nat.eqb (length ml) (length x)) with true by (symmetry; apply Nat.eqb_eq; unfold N in *; lia).
    cbn [bind]. set (y := map _ _). exists y. split; [reflexivity|].
    assert (Ey : remove_ml ml x = Ok y).
    { unfold remove_ml. replace (Nat.eqb (length ml) (length x)) with true by (symmetry; apply Nat.eqb_eq; unfold N in *; lia). reflexivity. }
    destruct (remove_ml_inv _ _ _ Ey) as [Ly Hy]. split.
    - split; [lia|]. intros n b c Hb Hc. pose proof (nth_error_lt _ _ _ Hc) as Hn.
      destruct (nth_error x n) as [[[s' t'] p']|] eqn:Ex; [|apply nth_error_None in Ex; lia].
      destruct (nth_error ml n) as [m|] eqn:Em; [|apply nth_error_None in Em; unfold N in *; lia].
      rewrite (Hy _ _ _ _ _ Ex (or_introl Em)) in Hb. assert (Eb : b = (s', t', if ltb p' m then nan else p')) by congruence.
      subst b. destruct (ltb p' m); [left; reflexivity|]. apply (Hx n); assumption.
    - destruct (nth_error ml pin) as [m|] eqn:Em; [|apply nth_error_None in Em; lia].
      exists s, t. rewrite (Hy _ _ _ _ _ Hp (or_introl Em)), (Hml_pin m eq_refl). reflexivity.
  Qed.

  Notation one := (one_iteration eos eos_s_t ppc_fn spsolve lsqr fuel loop_fuel junk casts pin o).
  Notation step := (step rel rho rs rt tol casts edges weight pin o).

  Lemma one_ok f dr k x dp : ratio_for f dr -> surface x -> pinned x ->
    exists r, one f dr edges ml ip ix (Fin pp) k x dp = Ok r /\ step r /\ pinned (i_out r).
  Proof.
    intros Hf Hx Hp. unfold one_iteration.
    assert (H0 : exists x0, (if (1 <? k)%Z then remove_ml ml x else Ok x) = Ok x0 /\ surface x0 /\ pinned x0).
    { destruct (1 <? k)%Z; [apply cut_ok; assumption|]. exists x. auto. }
    destruct H0 as (x0 & -> & Hx0 & Hp0). cbn [bind].
    destruct (search_ok ml k x0 Hml Hx0 (pinned_wet _ Hp0)) as (new & x1 & qu & -> & Hx1 & Hp1 & Hnd & Hqu). cbn [bind].
    assert (Hpin1 : pinned x1) by (unfold pinned; rewrite Hp1; exact Hp0).
    pose proof (region_ok x1 qu Hx1 (pinned_wet _ Hpin1) Hnd Hqu) as Hreg.
    destruct (solver_ok f dr x1 qu (water x1) Hf Hreg (water_ok x1 qu Hx1 Hqu)) as (phi & -> & Hphi). cbn [bind].
    pose proof Hx1 as [L1 Hs1]. pose proof Hphi as (g & Lphi & G1 & G2 & G3 & G4 & G5).
    assert (Hcase : forall n v, nth_error phi n = Some v -> (In n qu /\ v = Fin (g n)) \/ v = NaN).
    { intros n v Hv. destruct (in_dec Nat.eq_dec n qu) as [H|H].
      - left. split; [assumption|]. rewrite (G1 n H) in Hv. congruence.
      - right. rewrite (G2 n) in Hv; [congruence| |assumption]. rewrite <- Lphi. eapply nth_error_lt. exact Hv. }
    assert (Hnum : Forall number_or_nan phi).
    { apply Forall_forall. intros v Hv. apply In_nth_error in Hv. destruct Hv as [n Hn]. destruct (Hcase _ _ Hn) as [[_ ->]| ->].
      - right. eexists. reflexivity.
      - left. reflexivity. }
    assert (Hany : Forall any_cast casts) by (apply Forall_forall; intros c Hc; apply Hcasts; assumption).
    assert (Hfuel : Forall (enough_fuel fuel tol) casts) by (apply Forall_forall; intros c Hc; apply Hcasts; assumption).
    assert (Hdom : Forall (cast_in D) casts) by (apply Forall_forall; intros c Hc; apply Hcasts; assumption).
    destruct (vertsolve_omega_correct ppc_fn rel Hppc tol Htol eos rho D Heos x1 casts phi) as (x2 & Hv & L2 & Hout); trivial.
    { lia. }
    { intros n b v Hb Hv. destruct (Hcase _ _ Hv) as [[Hin ->]| ->]; [|right; left; reflexivity]. right. right.
      split; [|eexists; reflexivity]. apply Hqu in Hin. apply (surface_in x1 Hx1 n); [|assumption].
      destruct Hin as [j W]. inversion W; assumption. }
    rewrite Ho, (Hv fuel Hfuel). cbn [bind].
    assert (Hpinphi : nth_error phi pin = Some (Fin 0)).
    { rewrite <- G3. apply G1. apply Hqu. exists 0%nat. constructor. apply pinned_wet. assumption. }
    destruct (nth_error casts pin) as [cp|] eqn:Ecp; [|apply nth_error_None in Ecp; unfold N in *; lia].
    destruct Hpin1 as (sp & tp & Hpp).
    assert (Hx2pin : nth_error x2 pin = Some (Fin sp, Fin tp, Fin pp)).
    { destruct (nth_error x2 pin) as [b|] eqn:Eb; [|apply nth_error_None in Eb; unfold N in *; lia].
      f_equal. apply (Hout _ _ _ _ _ Hpp Ecp Hpinphi Eb). reflexivity. }
    rewrite (np_get_ok _ _ _ Hx2pin). cbn [bind fst snd]. rewrite np_set_ok by (unfold N in *; lia). cbn [bind].
    assert (Esame : upd x2 pin (Fin sp, Fin tp, Fin pp) = x2).
    { apply nth_error_ext. intros i. destruct (Nat.eq_dec pin i) as [<-|Hi].
      - rewrite nth_error_upd_eq by (unfold N in *; lia). congruence.
      - apply nth_error_upd_neq. assumption. }
    rewrite Esame. eexists. split; [reflexivity|]. cbn [i_out].
    assert (Hx2 : surface x2).
    { split; [lia|]. intros n b c Hb Hc. pose proof (nth_error_lt _ _ _ Hc) as Hn.
      destruct (nth_error x1 n) as [a|] eqn:Ea; [|apply nth_error_None in Ea; lia].
      destruct (nth_error phi n) as [v|] eqn:Ev; [|apply nth_error_None in Ev; lia].
      destruct (Hout _ _ _ _ _ Ea Hc Ev Hb) as (O1 & O2 & O3).
      destruct (Hcase _ _ Ev) as [[Hin ->]| ->]; [|left; rewrite O2 by reflexivity; reflexivity].
      destruct (Req_EM_T (g n) 0) as [E0|E0].
      - rewrite O1 by (rewrite E0; reflexivity). apply (Hs1 n); assumption.
      - apply Hqu in Hin. assert (Hwn : wet_at x1 n) by (destruct Hin as [j W]; inversion W; assumption).
        destruct (surface_in x1 Hx1 n a Hwn Ea) as (s & t & p & -> & _).
        destruct (O3 _ _ _ _ eq_refl eq_refl E0) as [(_ & ->)|(gS & gT & lo & hi & Hpr & [(-> & _)|(q & -> & Hq & _)])].
        + left. reflexivity.
        + left. reflexivity.
        + right. exists gS, gT, lo, hi, q. auto. }
    split; [|exists sp, tp; assumption].
    destruct (changes_numbers x1 x2 (surface_numbers _ Hx1) (surface_numbers _ Hx2)) as [Hcn Hce].
    constructor; cbn [i_in i_new i_wet i_nodes i_phi i_out i_phi_mav i_dp_rms].
    - assumption.
    - assumption.
    - assumption.
    - exists (water x1). split.
      + intros n Hn. apply (r_wet _ _ _ _ _ _ Hreg). assumption.
      + exact (eq_ind _ (fun z => least_squares z qu pin _ phi) Hphi _ L1).
    - rewrite <- numbers_abs. apply nanmean_numbers; [apply number_or_nan_abs; assumption|].
      intros E. rewrite numbers_abs in E. apply map_eq_nil in E. apply nth_error_In in Hpinphi. apply numbers_in in Hpinphi. rewrite E in Hpinphi. destruct Hpinphi.
    - exact Hout.
    - intros Hd. assert (Hb : (o_diags o || (ltb (lit 0 0) (TOL_P_CHANGE_RMS o)))%bool = true).
      { destruct Hd as [->|(x' & -> & Hx')]; [reflexivity|]. apply orb_true_iff. right. cbn [lit xrNum]. rewrite Rlit_0. cbn. apply Rltb_true. assumption. }
      rewrite Hb. rewrite <- Hce, <- numbers_sqr by assumption.
      assert (Hnn : numbers (map (fun x3 : xr => mul x3 x3) (p_change x1 x2)) <> []).
      { intros E. rewrite numbers_sqr in E by assumption. apply map_eq_nil in E. assert (G : In (pp - pp) (numbers (p_change x1 x2))).
        { rewrite Hce. unfold changes. apply in_flat_map. exists ((Fin sp, Fin tp, Fin pp), (Fin sp, Fin tp, Fin pp)). split; [|left; reflexivity].
          apply nth_error_In with pin. rewrite nth_error_combine, Hpp, Hx2pin. reflexivity. }
        rewrite E in G. destruct G. }
      rewrite nanmean_numbers by (trivial; apply number_or_nan_sqr; assumption). cbn [fsqrt xrNum xr_sqrt].
      destruct Rlt_dec as [Hneg|]; [|reflexivity]. exfalso. revert Hneg. apply Rle_not_lt. unfold mean. apply Rmult_le_pos.
      + apply Rsum_nonneg. rewrite numbers_sqr by assumption. apply Forall_map. apply Forall_forall. intros z _. apply Rle_0_sqr.
      + left. apply Rinv_0_lt_compat. apply lt_0_INR. apply Nat.neq_0_lt_0. intros E. apply length_zero_iff_nil in E. apply (Hnn E).
    - split; [congruence|assumption].
  Qed.

  (** ** diagnostics *)
  Lemma surface_given x : surface x -> forall b, In b x -> bottle_in D b \/ missing b.
  Proof.
    intros [L H] b Hb. apply In_nth_error in Hb. destruct Hb as [n Hn].
    destruct (nth_error casts n) as [c|] eqn:Ec; [|apply nth_error_None in Ec; apply nth_error_lt in Hn; lia].
    destruct (H _ _ _ Hn Ec) as [E|Hc]; [|left; apply (on_cast_in c); [eapply nth_error_In; exact Ec|assumption]].
    right. destruct b as [[s t] p]. cbn in *. auto.
  Qed.
  Lemma norms_total (x : list bottle) : surface x ->
    exists e, ntp_epsilon_errors_norms eos_s_t x (GDict (Some edges) (Some g_dist) (Some g_distperp)) = Ok e.
  Proof.
    intros Hx. destruct (errors_total eos_s_t D rs rt x edges N Hedges (proj1 Hx) Hst Hst_nan (surface_given x Hx)) as (e & Ee & Le & _).
    unfold ntp_epsilon_errors_norms, ntp_epsilon_errors_norms_by. cbn [key bind]. rewrite errors_dict, Ee. cbn [bind].
    destruct (gmul_distances _ _ _ _ _ Hdist Hperp) as (area & -> & Ha). cbn [bind].
    rewrite (np_bin_distances _ _ _ _ (map finite01 e) Ha) by (rewrite map_length; assumption). cbn [bind].
    destruct eqb; [eexists; reflexivity|].
    destruct (gdiv_distances _ _ _ _ _ Hperp Hdist) as (ratio & -> & Hr).
    { destruct edges; [congruence|discriminate]. }
    { eapply Forall_impl; [|exact Hdpos]. intros. cbn in *. lra. }
    cbn [bind]. rewrite (np_bin_distances _ _ _ _ (map (fun x : xr => mul x x) e) Hr) by (rewrite map_length; assumption). cbn [bind].
    rewrite (np_bin_distances _ _ _ _ (map fabs e) Hperp) by (rewrite map_length; assumption). cbn [bind]. eexists. reflexivity.
  Qed.

  Notation record := (record eos_s_t (Some edges) (Some g_dist) (Some g_distperp)).
  Lemma record_total d it r n : dlength d n -> (it < n)%nat -> surface (i_out r) -> exists d', record d it r = Ok d' /\ dlength d' n.
  Proof.
    intros HL Hit Lo. pose proof HL as (L1 & L2 & L3 & L4 & L5 & L6 & L7 & L8). destruct (norms_total (i_out r) Lo) as (e & Ee).
    assert (H : exists d', record d it r = Ok d').
    { unfold M_omega.record. rewrite Ee. repeat (rewrite np_set_ok by lia; cbn [bind]). eexists. reflexivity. }
    destruct H as (d' & H). exists d'. split; [assumption|]. apply (record_ok _ _ _ _ _ _ _ _ _ H HL).
  Qed.

  (** ** the loop *)
  Notation iterate := (iterate eos eos_s_t ppc_fn spsolve lsqr fuel loop_fuel junk casts (Some edges) (Some g_dist) (Some g_distperp) pin o).
  Lemma iterate_ok f dr tol_lrpd n : ratio_for f dr -> forall k it x dp d, surface x -> pinned x ->
    (o_diags o = true -> dlength d n /\ (it + k <= n)%nat) ->
    exists its y d', iterate f dr edges ml ip ix (Fin pp) tol_lrpd k it x dp d = Ok (its, y, d')
      /\ Forall step its /\ surface y /\ pinned y /\ (k <> 0%nat -> its <> []).
  Proof.
    intros Hf. induction k as [|k IH]; intros it x dp d Hx Hp Hd; cbn [M_omega.iterate].
    - exists [], x, d. split; [reflexivity|]. split; [constructor|]. auto.
    - destruct (one_ok f dr (Z.of_nat it) x dp Hf Hx Hp) as (r & -> & Hs & Hpr). cbn [bind].
      pose proof (st_out _ _ _ _ _ _ _ _ _ _ _ Hs) as Ho'. 
      assert (H : exists d', (if o_diags o then record d it r else Ok d) = Ok d' /\ (o_diags o = true -> dlength d' n /\ (S it + k <= n)%nat)).
      { destruct (o_diags o) eqn:Ed.
        - destruct (Hd eq_refl) as [HL Hn]. destruct (record_total d it r n HL ltac:(lia) Ho') as (d' & E & L'). exists d'. split; [assumption|]. intros _. split; [assumption|lia].
        - exists d. split; [reflexivity|]. discriminate. }
      destruct H as (d' & -> & Hd'). cbn [bind]. destruct (_ && _)%bool.
      + exists [r], (i_out r), d'. split; [reflexivity|]. split; [constructor; [assumption|constructor]|]. split; [assumption|]. split; [assumption|]. discriminate.
      + destruct (IH (S it) (i_out r) (i_dp_rms r) d' Ho' Hpr Hd') as (its & y & d'' & -> & H1 & H2 & H3 & _). cbn [bind fst snd].
        exists (r :: its), y, d''. split; [reflexivity|]. split; [constructor; assumption|]. split; [assumption|]. split; [assumption|]. discriminate.
  Qed.

  (** ** the initial surface *)
  Variables (Sp Tp Pp : list xr) (kp Kp : nat) (ssp tsp psp : nat -> R).
  Hypothesis Hpincast : nth_error casts pin = Some (Sp, Tp, Pp).
  Hypothesis Hpinblk : cast Sp Tp Pp kp Kp ssp tsp psp.
  Hypothesis Hpinlev : (kp + 1 < Kp)%nat.
  Hypothesis Hpinrange : psp kp <= pp <= psp (Kp - 1)%nat.

  Lemma pin_interp : exists s t, interp_two (Fin pp) Pp Sp Tp = Ok (Fin s, Fin t) /\ on_cast rel (Sp, Tp, Pp) (Fin s, Fin t, Fin pp).
  Proof.
    destruct Hint as [H1 H2]. assert (Hex : same_extent (Sp, Tp, Pp)) by (rewrite Forall_forall in Hext; apply Hext; eapply nth_error_In; exact Hpincast).
    destruct (H2 _ _ _ _ _ _ _ _ pp Hpinblk Hex Hpinlev Hpinrange) as (s & t & E & Hs).
    destruct (H1 Sp Tp Pp (Fin pp)) as (s' & t' & E' & [Hn|Hc]).
    { right. exists kp, Kp, ssp, tsp, psp. auto. }
    { exact Hex. }
    - rewrite E in E'. injection E' as <- <-. congruence.
    - rewrite E in E'. injection E' as <- <-. pose proof (on_cast_finite3 _ _ Hc) as (a & b & c & G). injection G as -> -> _.
      exists a, b. auto.
  Qed.

  Notation starts := (starts_at surf_shape casts pin pp).
  Definition clean (x : bottle) : bottle := if isnan (fst (fst x)) then (fst (fst x), snd (fst x), nan) else x.
  Lemma clean_surface x : surface x -> surface (map clean x).
  Proof.
    intros [L H]. split; [rewrite map_length; assumption|]. intros n b c Hb Hc. rewrite nth_error_map in Hb.
    destruct (nth_error x n) as [b'|] eqn:Ex; [|discriminate]. injection Hb as <-. unfold clean. destruct (isnan _); [left; reflexivity|]. apply (H n); assumption.
  Qed.

  Notation initial := (initial eos ppc_fn interp_two fuel loop_fuel junk surf_shape casts pin o).
  Lemma initial_ok p_init : starts p_init -> exists x, initial p_init ml ip ix = Ok (x, Fin pp) /\ surface (map clean x) /\ pinned x.
  Proof.
    intros Hs. destruct pin_interp as (s0 & t0 & Ei & Hon). destruct p_init as [p|sh p|]; cbn [starts_at M_omega.initial] in *; [| |destruct Hs].
    - subst p. rewrite (np_get_ok _ _ _ Hpincast). cbn [bind]. rewrite Ei. cbn [bind fst snd].
      rewrite np_set_ok by (rewrite repeat_length; exact Hpin). cbn [bind]. set (x := upd _ _ _).
      assert (Hpx : nth_error x pin = Some (Fin s0, Fin t0, Fin pp)) by (unfold x; apply nth_error_upd_eq; rewrite repeat_length; exact Hpin).
      assert (Hx : surface x).
      { split; [unfold x; rewrite length_upd, repeat_length; reflexivity|]. intros n b c Hb Hc.
        destruct (Nat.eq_dec pin n) as [<-|Hn].
        - right. rewrite Hpx in Hb. injection Hb as <-. rewrite Hpincast in Hc. injection Hc as <-. assumption.
        - left. unfold x in Hb. rewrite nth_error_upd_neq in Hb by assumption. apply nth_error_In, repeat_spec in Hb. subst b. reflexivity. }
      rewrite Ho. destruct (perim_ok ml (junk 0%Z) (ITER_WET_PERIM o) x Hml (Hjunk _) Hx) as (r & -> & Hr & Hq). cbn [bind].
      exists (snd r). split; [reflexivity|]. split; [apply clean_surface; assumption|].
      exists s0, t0. rewrite (proj1 (Hq ltac:(exists (Fin s0), (Fin t0), (Fin pp); auto))). assumption.
    - destruct Hs as (-> & Lp & Hpp). destruct list_eq_dec as [_|]; [|congruence]. rewrite (np_get_ok _ _ _ Hpp). cbn [bind].
      destruct (mapM_ok (fun pc => let '(p, (Sm, Tm, Pm)) := pc in let! st := interp_two p Pm Sm Tm in Ok (fst st, snd st, p)) (combine p casts)) as (x & Ex & Lx & Hx).
      { intros [q [[Sm Tm] Pm]] Hin. apply in_combine_r in Hin. destruct Hint as [H1 _].
        destruct (H1 Sm Tm Pm q (proj1 (Hcasts _ Hin)) (proj1 (Forall_forall _ _) Hext _ Hin)) as (s & t & -> & _). cbn [bind]. eexists. reflexivity. }
      rewrite Ex. cbn [bind]. exists x. split; [reflexivity|].
      assert (Lx' : length x = N) by (rewrite Lx, combine_length; unfold N in *; lia).
      assert (Hpt : forall n b c, nth_error x n = Some b -> nth_error casts n = Some c ->
                nth_error p n = Some (snd b) /\ (let '(Sm, Tm, Pm) := c in interp_two (snd b) Pm Sm Tm = Ok (fst (fst b), snd (fst b)))).
      { intros n b [[Sm Tm] Pm] Hb Hc. destruct (nth_error p n) as [q|] eqn:Eq; [|apply nth_error_None in Eq; apply nth_error_lt in Hc; unfold N in *; lia].
        destruct (Hx n (q, (Sm, Tm, Pm))) as (b' & Hb' & Eb). { rewrite nth_error_combine, Eq, Hc. reflexivity. }
        rewrite Hb in Hb'. injection Hb' as <-. destruct (interp_two q Pm Sm Tm) as [st|] eqn:Est; [|discriminate]. cbn [bind] in Eb. injection Eb as <-.
        cbn. destruct st. auto. }
      split.
      + split; [rewrite map_length; assumption|]. intros n b c Hb Hc. rewrite nth_error_map in Hb.
        destruct (nth_error x n) as [b'|] eqn:Eb; [|discriminate]. injection Hb as <-. destruct (Hpt _ _ _ Eb Hc) as [_ Hi].
        destruct c as [[Sm Tm] Pm]. destruct Hint as [H1 _].
        destruct (H1 Sm Tm Pm (snd b') (proj1 (Hcasts _ (nth_error_In _ _ Hc))) (proj1 (Forall_forall _ _) Hext _ (nth_error_In _ _ Hc))) as (s & t & Est & [Hn|Hon']).
        * rewrite Hi in Est. injection Est as <- <-. left. unfold clean. rewrite Hn. reflexivity.
        * rewrite Hi in Est. injection Est as Es Et. destruct b' as [[s' t'] p']. cbn [fst snd] in *. subst. right.
          unfold clean. cbn [fst snd]. destruct (on_cast_finite3 _ _ Hon') as (a & b & c & G). injection G as -> -> ->. exact Hon'.
      + destruct (nth_error x pin) as [b|] eqn:Eb; [|apply nth_error_None in Eb; unfold N in *; lia].
        destruct (Hpt _ _ _ Eb Hpincast) as [Hq Hi]. rewrite Hpp in Hq. injection Hq as Hq. rewrite <- Hq in Hi. rewrite Ei in Hi. injection Hi as E1 E2.
        exists s0, t0. rewrite Eb. destruct b as [[s' t'] p']. cbn in *. congruence.
  Qed.
End Exact.

Lemma sqrt_distances g n l : distances g n l -> Forall (fun x => 0 < x) l -> n <> 0%nat ->
  distances (match g with Sc x => Sc (fsqrt x) | Ar l => Ar (map fsqrt l) end) n (map sqrt l).
Proof.
  intros [L H] Hpos Hn. split; [rewrite map_length; assumption|]. rewrite Forall_forall in Hpos. destruct H as [-> | (c & -> & ->)].
  - left. f_equal. rewrite !map_map. apply map_ext_in. intros x Hx. specialize (Hpos x Hx).
    cbn [fsqrt xrNum xr_sqrt]. destruct Rlt_dec; [lra|reflexivity].
  - right. exists (sqrt c). assert (Hc : 0 < c) by (apply Hpos; destruct n; [congruence|left; reflexivity]).
    cbn [fsqrt xrNum xr_sqrt]. destruct Rlt_dec; [lra|]. split; [reflexivity|]. apply map_repeat.
Qed.

Lemma omega_exact : forall D (eos : xr -> xr -> xr -> res xr) rho eos_s_t rs rt ppc_fn rel interp_two spsolve lsqr
    fuel loop_fuel junk junk_p junk_i surf_shape casts edges g_dist g_distperp dist distperp pin pp o tol p_init p_ml,
  eos_on D eos rho -> eos_s_t_on D eos_s_t rs rt -> nan_safe eos_s_t -> water_in D (34.5, 3, 1000) ->
  interpolator ppc_fn rel -> column_interp rel interp_two -> exact_spsolve spsolve -> exact_lsqr lsqr ->
  TOL_P_SOLVER o = Fin tol -> 0 < tol ->
  (forall c, In c casts -> any_cast c /\ cast_in D c /\ enough_fuel fuel tol c) ->
  Forall same_extent casts ->
  (length casts < loop_fuel)%nat -> (forall k, (length casts <= length (junk k))%nat) ->
  (length casts < length junk_p)%nat -> (2 * length edges <= length junk_i)%nat ->
  in_range edges (length casts) -> edges <> [] ->
  distances g_dist (length edges) dist -> distances g_distperp (length edges) distperp ->
  Forall (fun x => 0 < x) dist -> Forall (fun x => 0 < x) distperp ->
  in_cast casts pin pp -> starts_at surf_shape casts pin pp p_init -> below_mixed_layer casts pin pp p_ml ->
  spells "poisson" (OMEGA_FORMULATION o) \/ spells "gradient" (OMEGA_FORMULATION o) ->
  (o_diags o = true -> (0 < ITER_MAX o)%Z) ->
  exists x d its,
    omega_surf eos eos_s_t ppc_fn interp_two spsolve lsqr fuel loop_fuel junk junk_p junk_i surf_shape casts
      (Some edges) (Some g_dist) (Some g_distperp) pin o p_init p_ml = Ok (x, d, its)
    /\ (d = None <-> o_diags o = false)
    /\ surface rel casts x
    /\ Forall (step rel rho rs rt tol casts edges (weights dist distperp) pin o) its
    /\ exists s t, nth_error x pin = Some (Fin s, Fin t, Fin pp).
Proof.
  intros D eos rho eos_s_t rs rt ppc_fn rel interp_two spsolve lsqr fuel loop_fuel junk junk_p junk_i surf_shape casts edges g_dist g_distperp
    dist distperp pin pp o tol p_init p_ml Heos Hst Htot (Hw1 & Hw2 & Hw3) Hppc Hint Hsp Hls Ho Htol Hcasts Hext Hlf Hjunk Hjp Hji Hedges Hne Hdist Hperp Hdpos Hppos
    (Sp & Tp & Pp & kp & Kp & ssp & tsp & psp & Hpc & Hblk & Hlev & Hrange) Hstart Hbelow Hform Hmax.
  assert (Hpin : (pin < length casts)%nat) by (eapply nth_error_lt; exact Hpc).
  assert (Hlen : length edges <> 0%nat) by (destruct edges; [congruence|discriminate]).
  destruct (gdiv_distances _ _ _ _ _ Hperp Hdist Hlen) as (dr & Edr & Hdr).
  { eapply Forall_impl; [|exact Hdpos]. intros. cbn in *. lra. }
  unfold omega_surf. cbn [key bind]. rewrite Edr. cbn [bind]. fold (ml_of casts p_ml). set (ml := ml_of casts p_ml).
  assert (Hml : length ml = length casts /\ forall m, nth_error ml pin = Some m -> ltb (Fin pp) m = false).
  { unfold ml, ml_of. destruct p_ml as [l|]; [exact Hbelow|]. split; [apply repeat_length|]. intros m Hm. apply nth_error_In, repeat_spec in Hm. subst m. reflexivity. }
  destruct Hml as [Lml Hml].
  destruct (edges_to_csr_adj edges (length casts) (Some (length casts)) junk_p junk_i Hedges eq_refl Hjp Hji) as (ip & ix & -> & Hcsr & Hadj). cbn [bind].
  pose proof (weight_pos dist distperp Hdpos Hppos) as Hwpos.
  set (fd := if String.eqb (lower (OMEGA_FORMULATION o)) "poisson" then _ else _).
  assert (Hfd : exists f dr', fd = Ok (f, dr') /\ ratio_for edges dist distperp f dr').
  { unfold fd. destruct Hform as [H|H]; [rewrite (spells_lower _ _ H poisson_small)|rewrite (spells_lower _ _ H gradient_small)]; cbn.
    - exists FPoisson, dr. split; [reflexivity|]. exact Hdr.
    - exists FGradient. eexists. split; [reflexivity|]. apply sqrt_distances; assumption. }
  destruct Hfd as (f & dr' & -> & Hf). cbn [bind].
  set (v := eos _ _ _). assert (Hv : exists r, v = Ok r) by (eexists; unfold v; change (lit 345 (-1) : xr) with (Fin (Rlit 345 (-1))); replace (Rlit 345 (-1)) with 34.5 by (unfold Rlit; cbn; lra); xsimp; apply Heos; assumption). destruct Hv as (r & ->). cbn [bind].
  set (tl := if ltb r _ then _ else _).
  assert (Hneg : (o_diags o && (ITER_MAX o + 1 <? 0)%Z)%bool = false).
  { destruct (o_diags o); [|reflexivity]. cbn. apply Z.ltb_ge. specialize (Hmax eq_refl). lia. }
  rewrite Hneg. cbn [bind].
  edestruct (initial_ok D eos rho Heos ppc_fn rel Hppc interp_two Hint) as (x00 & -> & Hsurf & Hpinned); [eassumption..|]. cbn [bind].
  destruct Hpinned as (s0 & t0 & Hp0). rewrite (np_get_ok _ _ _ Hp0). cbn [bind]. change (isnan (fst (fst (Fin s0, Fin t0, Fin pp)))) with false. cbv iota.
  change (map (fun x : bottle => if isnan (fst (fst x)) then (fst (fst x), snd (fst x), nan) else x) x00) with (map clean x00).
  set (x0 := map clean x00) in *.
  assert (Hp : pinned pin pp x0) by (exists s0, t0; unfold x0; rewrite nth_error_map, Hp0; reflexivity).
  set (dg := if o_diags o then _ else _).
  assert (Hdg : exists d, dg = Ok d /\ (o_diags o = true -> dlength d (Z.to_nat (ITER_MAX o + 1)) /\ (1 + Z.to_nat (ITER_MAX o) <= Z.to_nat (ITER_MAX o + 1))%nat)).
  { unfold dg. destruct (o_diags o) eqn:Ed; [|eexists; split; [reflexivity|discriminate]]. specialize (Hmax eq_refl).
    edestruct norms_total with (x := x0) as (e & ->); [eassumption..|].
    cbn [bind]. repeat (rewrite np_set_ok by (cbn; rewrite ?length_upd, repeat_length; lia); cbn [bind]).
    eexists. split; [reflexivity|]. intros _. split; [|lia]. unfold dlength. cbn. rewrite ?length_upd, !repeat_length. auto 10. }
  destruct Hdg as (d0 & -> & Hd0). cbn [bind].
  edestruct iterate_ok with (k := Z.to_nat (ITER_MAX o)) (it := 1%nat) (x := x0) (d := d0) as (its & y & d' & -> & H1 & H2 & H3 & H4); [eassumption..|].
  cbn [bind]. destruct (o_diags o) eqn:Ed.
  - specialize (Hmax eq_refl). destruct its as [|r0 its]; [exfalso; apply H4; [lia|reflexivity]|]. cbn [length trim bind].
    eexists y, _, (r0 :: its). split; [reflexivity|]. split; [split; discriminate|]. split; [exact H2|]. split; [exact H1|]. exact H3.
  - exists y, None, its. split; [reflexivity|]. split; [tauto|]. split; [exact H2|]. split; [exact H1|]. exact H3.
Qed.

(** ** names of formulations *)
Lemma formulation_known : forall (F : Type) (Nm : Num F) eos eos_s_t ppc_fn interp_two spsolve lsqr fuel loop_fuel junk junk_p junk_i
    surf_shape casts g_edges g_dist g_distperp pin (o : @options F) p_init p_ml r,
  omega_surf eos eos_s_t ppc_fn interp_two spsolve lsqr fuel loop_fuel junk junk_p junk_i surf_shape casts
    g_edges g_dist g_distperp pin o p_init p_ml = Ok r -> spells "poisson" (OMEGA_FORMULATION o) \/ spells "gradient" (OMEGA_FORMULATION o).
Proof.
  intros F Nm eos eos_s_t ppc_fn interp_two spsolve lsqr fuel loop_fuel junk junk_p junk_i surf_shape casts g_edges g_dist g_distperp pin o p_init p_ml r E.
  unfold omega_surf in E. destruct (key g_distperp); [|discriminate]. destruct (key g_dist); [|discriminate]. cbn [bind] in E. destruct (gdiv _ _); [|discriminate].
  destruct (key g_edges); [|discriminate]. cbn [bind] in E. destruct (edges_to_csr _ _ _ _) as [[ip ix]|]; [|discriminate]. cbn [bind] in E.
  pose proof (lower_spells (OMEGA_FORMULATION o)) as H.
  destruct (String.eqb_spec (lower (OMEGA_FORMULATION o)) "poisson") as [E1|_]; [rewrite E1 in H; left; exact H|].
  destruct (String.eqb_spec (lower (OMEGA_FORMULATION o)) "gradient") as [E1|_]; [rewrite E1 in H; right; exact H|discriminate].
Qed.
Lemma formulation_unknown : forall eos eos_s_t ppc_fn interp_two spsolve lsqr fuel loop_fuel junk junk_p junk_i surf_shape (casts : list (list xr * list xr * list xr))
    edges g_dist g_distperp dist distperp pin (o : @options xr) p_init p_ml,
  (length casts < length junk_p)%nat -> (2 * length edges <= length junk_i)%nat -> in_range edges (length casts) -> edges <> [] ->
  distances g_dist (length edges) dist -> distances g_distperp (length edges) distperp -> Forall (fun x => 0 < x) dist ->
  ~ spells "poisson" (OMEGA_FORMULATION o) -> ~ spells "gradient" (OMEGA_FORMULATION o) ->
  omega_surf eos eos_s_t ppc_fn interp_two spsolve lsqr fuel loop_fuel junk junk_p junk_i surf_shape casts
    (Some edges) (Some g_dist) (Some g_distperp) pin o p_init p_ml = Err ValueError.
Proof.
  intros eos eos_s_t ppc_fn interp_two spsolve lsqr fuel loop_fuel junk junk_p junk_i surf_shape casts edges g_dist g_distperp dist distperp pin o p_init p_ml
    Hjp Hji Hedges Hne Hdist Hperp Hdpos H1 H2.
  assert (Hlen : length edges <> 0%nat) by (destruct edges; [congruence|discriminate]).
  destruct (gdiv_distances _ _ _ _ _ Hperp Hdist Hlen) as (dr & Edr & Hdr).
  { eapply Forall_impl; [|exact Hdpos]. intros. cbn in *. lra. }
  unfold omega_surf. cbn [key bind]. rewrite Edr. cbn [bind].
  destruct (edges_to_csr_adj edges (length casts) (Some (length casts)) junk_p junk_i Hedges eq_refl Hjp Hji) as (ip & ix & -> & _). cbn [bind].
  pose proof (lower_spells (OMEGA_FORMULATION o)) as H.
  destruct (String.eqb_spec (lower (OMEGA_FORMULATION o)) "poisson") as [E1|_]; [rewrite E1 in H; contradiction|].
  destruct (String.eqb_spec (lower (OMEGA_FORMULATION o)) "gradient") as [E1|_]; [rewrite E1 in H; contradiction|reflexivity].
Qed.

(** ** changes of pressure in the diagnostics *)
Lemma nanmax_from : forall l r, Forall number_or_nan l ->
  exists m, fold_left (fun m x : xr => if isnan m then x else if ltb m x then x else m) l (Fin r) = Fin m /\ greatest m (r :: numbers l).
Proof.
  induction l as [|x l IH]; intros r H.
  - exists r. split; [reflexivity|]. split; [left; reflexivity|]. intros y [->|[]]. lra.
  - inversion H as [|? ? Hx Hl]; subst. destruct Hx as [->|(y & ->)].
    + cbn [fold_left]. exact (IH r Hl).
    + cbn [fold_left isnan xrNum xr_isnan ltb xr_ltb]. destruct (Rltb_spec r y) as [E|E].
      * destruct (IH y Hl) as (m & Em & Hin & Hm). exists m. split; [exact Em|]. split; [right; exact Hin|].
        pose proof (Hm y (or_introl eq_refl)) as Hy.
        intros z [->|Hz]; [lra|exact (Hm z Hz)].
      * destruct (IH r Hl) as (m & Em & Hin & Hm). exists m. split; [exact Em|].
        pose proof (Hm r (or_introl eq_refl)) as Hr. split.
        { destruct Hin as [Hin|Hin]; [left; exact Hin|right; right; exact Hin]. }
        intros z [->|[->|Hz]]; [exact Hr|lra|apply Hm; right; exact Hz].
Qed.
Lemma nanmax_numbers l : Forall number_or_nan l -> numbers l <> [] -> exists m, nanmax l = Fin m /\ greatest m (numbers l).
Proof.
  induction l as [|x l IH]; intros H Hne; [elim Hne; reflexivity|]. inversion H as [|? ? Hx Hl]; subst. destruct Hx as [->|(y & ->)].
  - exact (IH Hl Hne).
  - exact (nanmax_from l y Hl).
Qed.

Lemma surface_numbers' rel casts x : surface rel casts x -> Forall (fun b => number_or_nan (snd b)) x.
Proof.
  clear. intros [L H]. apply Forall_forall. intros b Hb. apply In_nth_error in Hb. destruct Hb as [n Hn].
  destruct (nth_error casts n) as [c|] eqn:Ec; [|apply nth_error_None in Ec; apply nth_error_lt in Hn; lia].
  destruct (H _ _ _ Hn Ec) as [E|Hc]; [left; assumption|]. destruct Hc as (gS & gT & lo & hi & r & _ & _ & ->). right. exists r. reflexivity.
Qed.

Lemma omega_changes : forall eos eos_s_t ppc_fn interp_two spsolve lsqr fuel loop_fuel junk junk_p junk_i
    surf_shape casts g_edges g_dist g_distperp pin (o : @options xr) p_init p_ml x d its rel rho rs rt tol edges weight,
  omega_surf eos eos_s_t ppc_fn interp_two spsolve lsqr fuel loop_fuel junk junk_p junk_i surf_shape casts
    g_edges g_dist g_distperp pin o p_init p_ml = Ok (x, Some d, its) ->
  Forall (step rel rho rs rt tol casts edges weight pin o) its ->
  forall k r s t pp, nth_error its k = Some r -> (S k < length its)%nat -> nth_error (i_out r) pin = Some (s, t, Fin pp) ->
  exists m, greatest m (map Rabs (changes (i_wet r) (i_out r)))
    /\ nth_error (d_dp_Linf d) (S k) = Some (Fin m)
    /\ nth_error (d_dp_MAV d) (S k) = Some (Fin (mean (map Rabs (changes (i_wet r) (i_out r))))).
Proof.
  intros eos eos_s_t ppc_fn interp_two spsolve lsqr fuel loop_fuel junk junk_p junk_i surf_shape casts g_edges g_dist g_distperp pin o p_init p_ml x d its
    rel rho rs rt tol edges weight H Hs k r s t pp Hr Hk Hp.
  pose proof H as H'. eapply omega_dp in H'; [|exact Hr|exact Hk]. destruct H' as (E1 & E2).
  rewrite Forall_forall in Hs. pose proof (Hs r (nth_error_In _ _ Hr)) as St.
  assert (N1 : Forall (fun b => number_or_nan (snd b)) (i_wet r)) by (eapply surface_numbers'; exact (st_wet _ _ _ _ _ _ _ _ _ _ _ St)).
  assert (N2 : Forall (fun b => number_or_nan (snd b)) (i_out r)) by (eapply surface_numbers'; exact (st_out _ _ _ _ _ _ _ _ _ _ _ St)).
  destruct (changes_numbers (i_wet r) (i_out r) N1 N2) as [Hcn Hce].
  assert (Hne : numbers (map fabs (p_change (i_wet r) (i_out r))) <> []).
  { destruct (st_pin _ _ _ _ _ _ _ _ _ _ _ St) as (Ep & _). rewrite Hp in Ep. symmetry in Ep.
    assert (Hin : In 0 (changes (i_wet r) (i_out r))).
    { unfold changes. apply in_flat_map. exists ((s, t, Fin pp), (s, t, Fin pp)). split.
      - apply nth_error_In with pin. rewrite nth_error_combine, Ep, Hp. reflexivity.
      - left. cbn. lra. }
    rewrite numbers_abs, Hce. intro E. apply map_eq_nil in E. rewrite E in Hin. exact Hin. }
  destruct (nanmax_numbers _ (number_or_nan_abs _ Hcn) Hne) as (m & Em & Hm).
  exists m. rewrite E1, E2, Em, nanmean_numbers by (trivial; apply number_or_nan_abs; exact Hcn).
  rewrite numbers_abs, Hce in *. exact (conj Hm (conj eq_refl eq_refl)).
Qed.
