(** * The entry points potential_surf and anomaly_surf in binary64 *)
From Coq Require Import ZArith Bool String Reals Lra Lia List SpecFloat.
From Verif Require Import Num XR SF Res Arr ArrLemmas Nd NdLemmas XRlemmas M_fzero S_fzero S_fzero64 M_ppinterp M_eos_base M_jmd95 M_jmdfwg06 M_gsw M_eostools
  M_lib M_ntp M_make_pp M_surfaces S_eos S_float S_interp S_domain S_named S_traj M_traj M_vertsolve S_vertsolve S_surfaces S_vert64 S_entry64
  P_float P_fl P_fzero64 P_holds P_ppinterp P_coeffs P_traj P_vertsolve P_isopycnal P_domain P_surfaces P_linear64 P_eosfloat4 P_vert64 P_surf64 P_traj64.
Import ListNotations.
Local Open Scope R_scope.

(** ** Interpolating at the pinning point *)
Lemma nth_error_sum64 (S P : list f64) i s p : nth_error S i = Some s -> nth_error P i = Some p ->
  nth_error (map (fun z : f64 * f64 => add (fst z) (snd z)) (combine S P)) i = Some (add s p).
Proof. intros Hs Hp. rewrite nth_error_map, nth_error_combine, Hs, Hp. reflexivity. Qed.

Lemma add_nan_l (x : f64) : add (S754_nan : f64) x = S754_nan. Proof. reflexivity. Qed.
Lemma add_nan_r (x : f64) : add x (S754_nan : f64) = S754_nan. Proof. destruct x; reflexivity. Qed.

Lemma sum_range64 S T P S' T' P' k K ss ts ps s0 pm : 0 <= s0 -> pm <= 10000 -> holds_column (S, T, P) (S', T', P') ->
  cast S' T' P' k K ss ts ps -> cast_in (sea s0 pm) (S', T', P') ->
  valid_range_1 (map (fun z : f64 * f64 => add (fst z) (snd z)) (combine S P)) = Ok (k, K).
Proof.
  intros Hs0 Hpm (HS & _ & HP) HC Hin. pose proof (cast_blk _ _ _ _ _ _ _ _ HC) as [Hlen HkK HK HX HY Hinc Hpre Hpost].
  specialize (Hin _ _ _ _ _ HC). cbn [sea box dS dT dP] in Hin. unfold upto in Hin.
  assert (LS := holds_length _ _ HS). assert (LP := holds_length _ _ HP).
  set (Z := map _ _).
  assert (HlZ : length Z = length P') by (unfold Z; rewrite map_length, combine_length; lia).
  assert (Hfin : forall i, (k <= i < K)%nat -> finite64 (nth i Z nan)).
  { intros i Hi. destruct (holds_get S S' i _ HS (HY i Hi)) as (s & Es & [Fs Vs]). destruct (holds_get P P' i _ HP (HX i Hi)) as (p & Ep & [Fp Vp]).
    rewrite (nth_error_nth Z i nan (nth_error_sum64 _ _ _ _ _ Es Ep)).
    apply (sf_add_near s p Fs Fp). apply small_big. rewrite Vs, Vp. pose proof (Hin i Hi). apply Rabs_le. lra. }
  assert (Hnan : forall i, (i < length P')%nat -> nth_error P' i = Some NaN \/ nth_error S' i = Some NaN -> nth i Z nan = S754_nan).
  { intros i Hi H. destruct (nth_error S' i) as [s'|] eqn:Es'. 2:{ apply nth_error_None in Es'. lia. }
    destruct (nth_error P' i) as [p'|] eqn:Ep'. 2:{ apply nth_error_None in Ep'. lia. }
    destruct (holds_get S S' i _ HS Es') as (s & Es & Hs). destruct (holds_get P P' i _ HP Ep') as (p & Ep & Hp).
    rewrite (nth_error_nth Z i nan (nth_error_sum64 _ _ _ _ _ Es Ep)).
    destruct H as [H|H]; injection H as ->; cbn [S_vert64.holds] in *; [rewrite Hp; apply add_nan_r|rewrite Hs; apply add_nan_l]. }
  destruct (valid_range_1_spec Z) as (k' & K' & E & H1 & H2 & H3 & H4 & H5). rewrite E.
  assert (k' = k) as ->.
  { destruct (Nat.lt_trichotomy k' k) as [H|[H|H]]; [|assumption|]; exfalso.
    - destruct (H3 ltac:(lia)) as (A1 & _). rewrite (Hnan k' ltac:(lia) (Hpre k' H)) in A1. discriminate A1.
    - specialize (H2 k H). pose proof (finite_isfinite _ (Hfin k ltac:(lia))) as F. change (sf_isfinite (nth k Z nan)) with (isfinite (nth k Z nan)) in F. congruence. }
  assert (K' = K) as ->.
  { destruct (Nat.lt_trichotomy K' K) as [H|[H|H]]; [|assumption|]; exfalso.
    - destruct (H5 ltac:(lia)) as [A _]. pose proof (finite_isnan _ (Hfin K' ltac:(lia))) as F. change (sf_isnan (nth K' Z nan)) with (isnan (nth K' Z nan)) in F. congruence.
    - specialize (H4 K ltac:(lia)). rewrite (Hnan K ltac:(lia) (Hpost ltac:(lia))) in H4. discriminate H4. }
  reflexivity.
Qed.

Lemma slice_full {A} (l : list A) : slice l 0 (length l) = l.
Proof. unfold slice. cbn [skipn]. rewrite Nat.sub_0_r. apply firstn_all. Qed.

(** on data without NaN, both evaluations agree *)
Definition keeps (ppc_fn : list f64 -> list f64 -> res (list (list f64))) : Prop :=
  forall X Y C, X <> [] -> length X = length Y -> ppc_fn X Y = Ok C -> last_col C = Y.
Lemma linear_keeps junk : keeps (linear_coeffs_1 junk).
Proof. intros X Y C H1 H2 H3. destruct (linear_coeffs_1_spec junk X Y H1 H2) as (C0 & E & H & _). rewrite H3 in E. injection E as <-. exact H. Qed.
Lemma pchip_keeps junk : keeps (pchip_coeffs_1_nonan junk).
Proof. intros X Y C H1 H2 H3. exact (proj1 (pchip_coeffs_kK_inv X Y junk 0 (length X) C H2 (le_n _) H3)). Qed.
Lemma scheme_keeps name ppc rel e junk : scheme64 name ppc rel e -> keeps (ppc junk).
Proof. intros []; [apply linear_keeps|apply pchip_keeps]. Qed.

Lemma ppval_two_clean ppc_fn (X Y Z : list f64) X' Y' xs ys C D (x : f64) : keeps ppc_fn -> holds_all X X' -> holds_all Y Y' -> length Z = length X ->
  block X' Y' 0 (length X') xs ys -> (1 < length X')%nat ->
  ppc_fn X Y = Ok C -> ppc_fn X Z = Ok D ->
  ppval_1_two x X C D 0 = ppval_1_nonan_two x X C D 0.
Proof.
  intros HK HX HY HZ HB H2 EC ED. assert (LX := holds_length _ _ HX). assert (LY := holds_length _ _ HY).
  pose proof (blk_len _ _ _ _ _ _ HB) as LB.
  assert (HL : last_col C = Y).
  { apply (HK X Y C); [intros ->; cbn in LX; lia|lia|exact EC]. }
  unfold ppval_1_two, ppval_1_nonan_two. rewrite HL. unfold locate, locate_nonan.
  rewrite (holds_valid_range_two X X' Y Y' HX HY), (block_valid_range _ _ _ _ _ _ HB). cbn [bind]. rewrite <- LX.
  assert (G : Nat.leb (length X - 1) 0 = false) by (apply Nat.leb_gt; lia). rewrite G. cbn [orb].
  destruct (isnan x); [reflexivity|]. destruct (get X 0) as [X0|]; [|reflexivity]. cbn [bind]. destruct (x <? X0)%num; [reflexivity|].
  destruct (get X (length X - 1)) as [X1|]; [|reflexivity]. cbn [bind]. destruct (X1 <? x)%num; [reflexivity|].
  rewrite slice_full. cbn [bind]. rewrite Nat.add_0_r. reflexivity.
Qed.

Section Entry.
  Variables (eos : f64 -> f64 -> f64 -> res f64) (rho : R -> R -> R -> R) (s0 pm d B d' e : R).
  Hypothesis He0 : 0 <= e.
  Hypothesis Hpm : pm <= 10000.
  Hypothesis Heos : eos64_on (sea s0 pm) eos rho e e (dec 3 (-12)) d B.
  Hypothesis Hd0 : 0 <= d.
  Hypothesis Hd1 : d <= / 1000.
  Hypothesis HB : 0 <= B <= 10000.
  Hypothesis Hd' : d + 3 * (u64 * (B + d) + eta64) <= d'.
  Hypothesis Hs0 : 0 <= s0.
  Hypothesis Hc : continuous3 (sea s0 pm) rho.
  Variable (ppc_fn : list f64 -> list f64 -> res (list (list f64))) (rel : nat -> (nat -> R) -> (nat -> R) -> (R -> R) -> Prop).
  Hypotheses (Hppc : interpolator64 ppc_fn rel (powerRZ 2 (-30)) 10000 42 e) (Hkeep : keeps ppc_fn).
  Variable (tol : f64).
  Hypothesis Ftol : finite64 tol.
  Hypothesis Htol : tolerance_ok (fval tol).
  Let W := u64 * (B + d) + eta64.

  Lemma W_sub5 x : x <= 5 * B + 5 * d + 5 * W -> u64 * x + eta64 <= 6 * W.
  Proof.
    pose proof (W_small d B Hd0 Hd1 HB) as W0. fold W in W0.
    intros H. assert (u64 * x <= u64 * (5 * B + 5 * d + 5 * W)) by (apply Rmult_le_compat_l; [unfold u64; lra|exact H]).
    assert (u64 * W <= / 1000 * W) by (apply Rmult_le_compat_r; [left; apply W0|unfold u64; lra]).
    pose proof eta64_pos. assert (u64 * (B + d) = W - eta64) by (unfold W; ring). lra.
  Qed.

  (** isovalues known up to rounding *)
  Lemma potential_64v (ref iso : f64) vi casts casts' : finite64 ref -> 0 <= fval ref <= pm -> S_float.within iso vi d -> Rabs vi <= B ->
    Forall2 holds_column casts casts' -> Forall any_cast casts' -> Forall (cast_in (sea s0 pm)) casts' -> Forall column_spaced casts' ->
    exists x, (forall fuel, Forall (enough_fuel64 fuel (fval tol)) casts' ->
        vertsolve ppc_fn fuel (zero_potential eos ref iso) tol casts = Ok x)
      /\ Forall2 (surface_point64 rel (potential_of rho (fval ref) vi) (fval tol) e (2 * d')) casts' x.
  Proof.
    intros Fr Hr Wi Bi. pose proof (W_small d B Hd0 Hd1 HB) as W0. fold W in W0.
    apply (vertsolve_64 ppc_fn rel s0 pm e Hpm Hs0 Hppc tol Ftol Htol); [unfold W in *; lra| |].
    - intros P Sppc Tppc p s t vs vt Ep Ds Dt Fp Dp Ws Wt.
      destruct (zero_potential_64 eos rho s0 pm e (dec 3 (-12)) d B Heos (Rle_refl _) Hd0 Hd1 HB ref iso vi d Fr Hr Wi Hd0) with (1 := ltac:(fold W; lra) : d <= d + 2 * (u64 * (B + d) + eta64))
        (3 := Ep) (4 := Ds) (5 := Dt) (6 := Fp) (7 := Dp) (8 := Ws) (9 := Wt) as (y & Ey & Wy); [lra|].
      exists y. split; [exact Ey|]. eapply within_mono; [|exact Wy].
      pose proof (W_sub d B (B + Rabs vi + d + d) ltac:(lra)) as X. fold W in X. unfold W in *; lra.
    - apply continuous_potential; [exact Hr|exact Hc].
  Qed.

  Lemma anomaly_64v (sr tr iso : f64) vsr vtr vi casts casts' : S_float.within sr vsr e -> dS (sea s0 pm) vsr -> S_float.within tr vtr e -> dT (sea s0 pm) vtr ->
    S_float.within iso vi (2 * d + 2 * W) -> Rabs vi <= 2 * B ->
    Forall2 holds_column casts casts' -> Forall any_cast casts' -> Forall (cast_in (sea s0 pm)) casts' -> Forall column_spaced casts' ->
    exists x, (forall fuel, Forall (enough_fuel64 fuel (fval tol)) casts' ->
        vertsolve ppc_fn fuel (zero_anomaly eos (sr, tr) iso) tol casts = Ok x)
      /\ Forall2 (surface_point64 rel (anomaly_of rho vsr vtr vi) (fval tol) e (4 * d')) casts' x.
  Proof.
    intros Wsr Dsr Wtr Dtr Wi Bi. pose proof (W_small d B Hd0 Hd1 HB) as W0. fold W in W0.
    apply (vertsolve_64 ppc_fn rel s0 pm e Hpm Hs0 Hppc tol Ftol Htol); [unfold W in *; lra| |].
    - intros P Sppc Tppc p s t vs vt Ep Ds Dt Fp Dp Ws Wt.
      assert (He3 : 0 <= dec 3 (-12)) by (unfold dec; simpl; lra).
      destruct (Heos s t p vs vt (fval p) Ds Dt Dp Ws Wt (within_self p _ Fp He3)) as (Bv & y & Ey & Wy).
      destruct (Heos sr tr p vsr vtr (fval p) Dsr Dtr Dp Wsr Wtr (within_self p _ Fp He3)) as (Bv0 & y0 & Ey0 & Wy0).
      exists (sub (sub y y0) iso). split.
      { unfold zero_anomaly. rewrite Ep. cbn [bind fst snd]. rewrite Ey. cbn [bind]. rewrite Ey0. reflexivity. }
      assert (W1 := sub_within y y0 _ _ d d B B Wy Wy0 Bv Bv0 ltac:(lra)).
      apply (within_mono _ _ _ (2 * d + 2 * W)) in W1; [|pose proof (W_sub d B (B + B + d + d) ltac:(lra)); unfold W; lra].
      unfold anomaly_of. refine (within_mono _ _ _ _ _ (sub_within (sub y y0) iso _ _ _ (2 * d + 2 * W) (B + B) (2 * B) W1 Wi _ Bi _)).
      + pose proof (W_sub5 (B + B + 2 * B + (2 * d + 2 * W) + (2 * d + 2 * W)) ltac:(lra)). unfold W in *; lra.
      + pose proof (Rabs_triang (rho vs vt (fval p)) (- rho vsr vtr (fval p))) as Tr. rewrite Rabs_Ropp in Tr. unfold Rminus. lra.
      + lra.
    - apply continuous_anomaly; [exact Dsr|exact Dtr|exact Hc].
  Qed.

  (** ** The surfaces through a pinning point *)
  Variables (sh : list nat) (c : list nat -> column64) (c' : list nat -> column).
  Hypothesis Hcol : forall h, valid sh h -> holds_column (c h) (c' h) /\ any_cast (c' h) /\ cast_in (sea s0 pm) (c' h) /\ column_spaced (c' h).
  Notation casts := (build sh c).
  Notation casts' := (map c' (all_idx sh)).
  Notation fueled fuel := (forall h, valid sh h -> enough_fuel64 fuel (fval tol) (c' h)).

  Lemma all_cols (Q : column -> Prop) : (forall h, valid sh h -> Q (c' h)) -> Forall Q casts'.
  Proof. intros H. apply Forall_forall. intros y Hy. apply in_map_iff in Hy. destruct Hy as (h & <- & Hh). apply H. apply in_all_idx. exact Hh. Qed.
  Lemma cols_hold : Forall2 holds_column (elems casts) casts'.
  Proof.
    cbn [elems build]. assert (H : forall l, (forall h, In h l -> valid sh h) -> Forall2 holds_column (map c l) (map c' l)).
    { induction l as [|h l IH]; intros Hl; cbn [map]; constructor; [apply Hcol, Hl; left; reflexivity|apply IH; intros; apply Hl; right; assumption]. }
    apply H. intros h Hh. apply in_all_idx. exact Hh.
  Qed.
  Lemma cols_any : Forall any_cast casts'. Proof. apply all_cols. intros h V. apply Hcol, V. Qed.
  Lemma cols_in : Forall (cast_in (sea s0 pm)) casts'. Proof. apply all_cols. intros h V. apply Hcol, V. Qed.
  Lemma cols_spaced : Forall column_spaced casts'. Proof. apply all_cols. intros h V. apply Hcol, V. Qed.
  Lemma cols_fuel fuel : fueled fuel -> Forall (enough_fuel64 fuel (fval tol)) casts'. Proof. apply all_cols. Qed.
  Lemma cols_nth h : valid sh h -> nth_error (elems casts) (ravel sh h) = Some (c h).
  Proof. intros V. exact (build_at sh c h V). Qed.
  Lemma cols_nth' h : valid sh h -> nth_error casts' (ravel sh h) = Some (c' h).
  Proof. intros V. exact (build_at sh c' h V). Qed.
  Lemma cols_length x (Q : column -> bottle64 -> Prop) : Forall2 Q casts' x -> length x = prod sh.
  Proof. intros H. rewrite <- (build_wf sh c'). cbn [elems build]. clear -H. induction H; cbn [length]; lia. Qed.
  Lemma cols_point x (Q : column -> bottle64 -> Prop) h : Forall2 Q casts' x -> valid sh h -> Q (c' h) (at_pos sh x h).
  Proof.
    intros H V. assert (L := cols_length x Q H).
    assert (G : forall l l' i y y', Forall2 Q l l' -> nth_error l i = Some y -> nth_error l' i = Some y' -> Q y y').
    { intros l l' i y y' HG. revert i. induction HG; intros [|i] E1 E2; cbn in E1, E2; try discriminate; [congruence|eauto]. }
    apply (G _ _ _ _ _ H (cols_nth' h V)). apply at_pos_nth; assumption.
  Qed.

  Lemma column_values64 h (pp : f64) : valid sh h -> finite64 pp -> has_pressure (c' h) (fval pp) ->
    exists gS gT lo hi s t, profile rel (c' h) gS gT lo hi /\ lo <= fval pp <= hi
      /\ column_values ppc_fn (c h) pp = Ok (s, t) /\ S_float.within s (gS (fval pp)) e /\ S_float.within t (gT (fval pp)) e
      /\ dS (sea s0 pm) (gS (fval pp)) /\ dT (sea s0 pm) (gT (fval pp)) /\ dP (sea s0 pm) (fval pp).
  Proof.
    intros V Fp (k & K & ss & ts & ps & HC & H2 & Ip). destruct (Hcol h V) as (Hh & _ & Hin & Hsp).
    destruct (c h) as [[S T] P] eqn:Ec, (c' h) as [[S' T'] P'] eqn:Ec'. cbn [fst snd] in HC.
    destruct (cast_interpolants64 ppc_fn rel s0 pm e Hpm Hs0 Hppc S T P S' T' P' k K ss ts ps
      (proj1 Hh) (proj1 (proj2 Hh)) (proj2 (proj2 Hh)) HC H2 Hin Hsp)
      as (Sppc & Tppc & gS & gT & A & B' & E1 & E2 & Hpr & G0 & G1 & FA & FB & VA & VB & Hv).
    rewrite <- VA, <- VB in Ip. destruct (Hv pp Fp Ip) as (s & t & Ep & Ws & Wt).
    exists gS, gT, (fval A), (fval B'), s, t. split; [exact Hpr|]. split; [exact Ip|].
    split; [|split; [exact Ws|split; [exact Wt|exact (profile_in (sea s0 pm) rel (S', T', P') gS gT _ _ Hin Hpr _ Ip)]]].
    unfold column_values. rewrite (sum_range64 S T P S' T' P' k K ss ts ps s0 pm Hs0 Hpm Hh HC Hin). cbn [bind]. rewrite E1, E2. cbn [bind].
    assert (HBk := cast_blk _ _ _ _ _ _ _ _ HC). pose proof (blk_len _ _ _ _ _ _ HBk) as Hl. pose proof (blk_K _ _ _ _ _ _ HBk) as HK.
    assert (HlT := cast_lenT _ _ _ _ _ _ _ _ HC). destruct Hh as (HS & HT & HP).
    assert (B1 : block (slice P' k K) (slice S' k K) 0 (length (slice P' k K)) (from k ps) (from k ss)).
    { apply (block_slice P' S' S' k K ps ss ss HBk); [lia|]. apply (blk_Y _ _ _ _ _ _ HBk). }
    rewrite <- Ep. apply (ppval_two_clean ppc_fn _ _ (slice T k K) _ _ _ _ _ _ pp Hkeep (holds_slice P P' k K HP) (holds_slice S S' k K HS)) with (2 := B1); try assumption.
    - rewrite !length_slice; rewrite ?(holds_length _ _ HT), ?(holds_length _ _ HP); lia.
    - rewrite length_slice; lia.
  Qed.

  Lemma column_at64 h t : indexes sh h t -> column_at casts (CTuple t) = Ok (ravel sh h, c h).
  Proof.
    intros Ht. unfold column_at, ndim. cbn [shape build]. rewrite (indexes_length _ _ _ Ht), Nat.eqb_refl.
    pose proof (wrap_all_ok _ _ _ Ht []) as E. rewrite app_nil_r in E. rewrite E.
    rewrite (get_ok _ _ _ (cols_nth h (indexes_valid _ _ _ Ht))). reflexivity.
  Qed.
  Lemma can_index64 n h t : indexes sh h t -> can_index (sh ++ [n]) (CTuple t) = true.
  Proof. intros Ht. unfold can_index. rewrite (wrap_all_ok _ _ _ Ht). reflexivity. Qed.

  (** replacing the bottle at the pinning point *)
  Lemma pinned64 x (Q : column -> bottle64 -> Prop) h b : Forall2 Q casts' x -> valid sh h ->
    exists x', set x (ravel sh h) b = Ok x' /\ length x' = prod sh /\ at_pos sh x' h = b
      /\ forall h', valid sh h' -> h' <> h -> Q (c' h') (at_pos sh x' h').
  Proof.
    intros H V. assert (L := cols_length x Q H).
    assert (Hlt : (ravel sh h < length x)%nat) by (rewrite L, <- (build_wf sh c'); cbn [elems build]; apply nth_error_Some; rewrite (cols_nth' h V); discriminate).
    exists (upd x (ravel sh h) b). split; [apply set_ok; exact Hlt|]. split; [rewrite length_upd; exact L|]. split.
    - unfold at_pos. apply nth_error_nth. apply nth_error_upd_eq. exact Hlt.
    - intros h' V' N. pose proof (cols_point x Q h' H V') as HQ. revert HQ. unfold at_pos.
      rewrite nth_upd_neq; [auto|]. intros E. apply N.
      pose proof (nth_error_all_idx sh h V) as A. rewrite E, (nth_error_all_idx sh h' V') in A. congruence.
  Qed.

  Notation refof o := (match o with Some r => RFloat r | None => RNone end).
  Lemma potential_pinned64 n t h (pp : f64) (ref iso : option f64) : indexes sh h t -> finite64 pp -> has_pressure (c' h) (fval pp) ->
    (ref = None -> iso = None) -> (forall r, ref = Some r -> finite64 r /\ 0 <= fval r <= pm) -> (forall i, iso = Some i -> finite64 i /\ Rabs (fval i) <= B) ->
    exists gS gT lo hi s0 t0 iv64 x, let rv := match ref with Some r => r | None => pp end in
      let iv := match iso with Some i => fval i | None => rho (gS (fval pp)) (gT (fval pp)) (fval rv) end in
      profile rel (c' h) gS gT lo hi /\ lo <= fval pp <= hi /\ S_float.within s0 (gS (fval pp)) e /\ S_float.within t0 (gT (fval pp)) e
      /\ (forall i, iso = Some i -> iv64 = i) /\ S_float.within iv64 iv d /\ length x = prod sh /\ at_pos sh x h = (s0, t0, pp)
      /\ (forall fuel, fueled fuel -> isopycnal eos ppc_fn fuel Potential (refof ref) iso (CTuple t) (PFloat pp) n casts tol = Ok (x, RFloat rv, iv64))
      /\ (forall h', valid sh h' -> h' <> h -> surface_point64 rel (potential_of rho (fval rv) iv) (fval tol) e (2 * d') (c' h') (at_pos sh x h')).
  Proof.
    intros Ht Fpp Hpp Hri Hr Hi. assert (V := indexes_valid _ _ _ Ht).
    destruct (column_values64 h pp V Fpp Hpp) as (gS & gT & lo & hi & sv & tv & Hpr & Ip & Ev & Wsv & Wtv & Ds & Dt & Dp).
    set (rv := match ref with Some r => r | None => pp end).
    assert (Hrv : finite64 rv /\ dP (sea s0 pm) (fval rv)) by (unfold rv; destruct ref as [r|]; [apply (Hr r eq_refl)|split; [exact Fpp|exact Dp]]).
    destruct Hrv as [Frv Drv]. assert (He3 : 0 <= dec 3 (-12)) by (unfold dec; simpl; lra).
    destruct (Heos sv tv rv _ _ (fval rv) Ds Dt Drv Wsv Wtv (within_self rv _ Frv He3)) as (Bv & y & Ey & Wy).
    set (iv := match iso with Some i => fval i | None => rho (gS (fval pp)) (gT (fval pp)) (fval rv) end).
    set (iv64 := match iso with Some i => i | None => y end).
    assert (Wi : S_float.within iv64 iv d).
    { unfold iv64, iv. destruct iso as [i|]; [apply within_self; [apply (Hi i eq_refl)|exact Hd0]|exact Wy]. }
    assert (Bi : Rabs iv <= B) by (unfold iv; destruct iso as [i|]; [apply (Hi i eq_refl)|exact Bv]).
    destruct (potential_64v rv iv64 iv _ _ Frv Drv Wi Bi cols_hold cols_any cols_in cols_spaced) as (x & Ex & Hx).
    destruct (pinned64 x _ h (sv, tv, pp) Hx V) as (x' & Es & Lx & E0 & HS).
    exists gS, gT, lo, hi, sv, tv, iv64, x'. cbv zeta. fold rv. fold iv.
    split; [exact Hpr|]. split; [exact Ip|]. split; [exact Wsv|]. split; [exact Wtv|].
    split; [unfold iv64; intros i ->; reflexivity|]. split; [exact Wi|]. split; [exact Lx|]. split; [exact E0|]. split; [|exact HS].
    intros fuel Hf. unfold isopycnal. cbn [shape build]. rewrite (proj2 (check_ref_iff Potential (refof ref) iso (CTuple t) (PFloat pp) (sh ++ [n]))).
    2:{ split; [destruct ref; cbn; [right|]; split; discriminate|].
        split; [destruct ref; reflexivity|]. split; [eapply can_index64; exact Ht|discriminate]. }
    cbn [bind].
    replace (choose_ref_isoval eos ppc_fn Potential (refof ref) iso (CTuple t) (PFloat pp) casts) with (@Ok (@refarg f64 * f64) (RFloat rv, iv64)).
    2:{ symmetry. unfold choose_ref_isoval, iv64. destruct iso as [i|].
        - destruct ref as [r|] eqn:Er; [reflexivity|]. discriminate (Hri eq_refl).
        - rewrite (column_at64 h t Ht). cbn [bind snd]. rewrite Ev. cbn [bind]. unfold rv in *. destruct ref as [r|]; cbn [bind]; rewrite Ey; reflexivity. }
    cbn [bind solve_surface elems build]. rewrite Ex by (apply cols_fuel; exact Hf). cbn [bind].
    change (mk_nd sh (map c (all_idx sh))) with (build sh c). rewrite (column_at64 h t Ht). cbn [bind fst snd]. rewrite Ev. cbn [bind fst snd]. rewrite Es. reflexivity.
  Qed.

  Notation refof2 o := (match o with Some r => RPair (Some (fst r)) (Some (snd r)) | None => RNone end).
  Lemma anomaly_pinned64 n t h (pp : f64) (ref : option (f64 * f64)) (iso : option f64) : indexes sh h t -> finite64 pp -> has_pressure (c' h) (fval pp) ->
    (ref = None -> iso = None) ->
    (forall r, ref = Some r -> finite64 (fst r) /\ s0 <= fval (fst r) <= 42 /\ finite64 (snd r) /\ -3 <= fval (snd r) <= 40) ->
    (forall i, iso = Some i -> finite64 i /\ Rabs (fval i) <= B) ->
    exists gS gT lo hi s0 t0 iv64 x, let rv := match ref with Some r => r | None => (s0, t0) end in
      let '(rs, rt) := match ref with Some r => (fval (fst r), fval (snd r)) | None => (gS (fval pp), gT (fval pp)) end in
      let iv := match iso with Some i => fval i | None => rho (gS (fval pp)) (gT (fval pp)) (fval pp) - rho rs rt (fval pp) end in
      profile rel (c' h) gS gT lo hi /\ lo <= fval pp <= hi /\ S_float.within s0 (gS (fval pp)) e /\ S_float.within t0 (gT (fval pp)) e
      /\ (forall i, iso = Some i -> iv64 = i) /\ S_float.within iv64 iv (2 * d') /\ length x = prod sh /\ at_pos sh x h = (s0, t0, pp)
      /\ (forall fuel, fueled fuel -> isopycnal eos ppc_fn fuel Anomaly (refof2 ref) iso (CTuple t) (PFloat pp) n casts tol
            = Ok (x, RPair (Some (fst rv)) (Some (snd rv)), iv64))
      /\ (forall h', valid sh h' -> h' <> h -> surface_point64 rel (anomaly_of rho rs rt iv) (fval tol) e (4 * d') (c' h') (at_pos sh x h')).
  Proof.
    intros Ht Fpp Hpp Hri Hr Hi. assert (V := indexes_valid _ _ _ Ht). pose proof (W_small d B Hd0 Hd1 HB) as W0. fold W in W0.
    destruct (column_values64 h pp V Fpp Hpp) as (gS & gT & lo & hi & sv & tv & Hpr & Ip & Ev & Wsv & Wtv & Ds & Dt & Dp).
    assert (He3 : 0 <= dec 3 (-12)) by (unfold dec; simpl; lra).
    set (rv := match ref with Some r => r | None => (sv, tv) end).
    set (rr := match ref with Some r => (fval (fst r), fval (snd r)) | None => (gS (fval pp), gT (fval pp)) end).
    assert (Hrv : S_float.within (fst rv) (fst rr) e /\ dS (sea s0 pm) (fst rr) /\ S_float.within (snd rv) (snd rr) e /\ dT (sea s0 pm) (snd rr)).
    { unfold rv, rr. destruct ref as [r|]; cbn [fst snd].
      - destruct (Hr r eq_refl) as (F1 & R1 & F2 & R2). split; [exact (within_self _ _ F1 He0)|]. split; [exact R1|]. split; [exact (within_self _ _ F2 He0)|exact R2].
      - split; [exact Wsv|]. split; [exact Ds|]. split; [exact Wtv|exact Dt]. }
    destruct Hrv as (Wr1 & D1 & Wr2 & D2).
    destruct (Heos sv tv pp _ _ (fval pp) Ds Dt Dp Wsv Wtv (within_self pp _ Fpp He3)) as (Bv & y & Ey & Wy).
    destruct (Heos (fst rv) (snd rv) pp _ _ (fval pp) D1 D2 Dp Wr1 Wr2 (within_self pp _ Fpp He3)) as (Bv0 & y0 & Ey0 & Wy0).
    exists gS, gT, lo, hi, sv, tv, (match iso with Some i => i | None => sub y y0 end). fold rr. cbv zeta. fold rv.
    rewrite (surjective_pairing rr).
    set (iv := match iso with Some i => fval i | None => rho (gS (fval pp)) (gT (fval pp)) (fval pp) - rho (fst rr) (snd rr) (fval pp) end).
    set (iv64 := match iso with Some i => i | None => sub y y0 end).
    assert (W1 := sub_within y y0 _ _ d d B B Wy Wy0 Bv Bv0 ltac:(lra)).
    apply (within_mono _ _ _ (2 * d + 2 * W)) in W1; [|pose proof (W_sub d B (B + B + d + d) ltac:(lra)); unfold W; lra].
    assert (Wi : S_float.within iv64 iv (2 * d + 2 * W)).
    { unfold iv64, iv. destruct iso as [i|]; [apply within_self; [apply (Hi i eq_refl)|lra]|exact W1]. }
    assert (Bi : Rabs iv <= 2 * B).
    { unfold iv. destruct iso as [i|]; [pose proof (proj2 (Hi i eq_refl)); lra|].
      pose proof (Rabs_triang (rho (gS (fval pp)) (gT (fval pp)) (fval pp)) (- rho (fst rr) (snd rr) (fval pp))) as Tr. rewrite Rabs_Ropp in Tr. unfold Rminus. lra. }
    destruct (anomaly_64v (fst rv) (snd rv) iv64 _ _ iv _ _ Wr1 D1 Wr2 D2 Wi Bi cols_hold cols_any cols_in cols_spaced) as (x & Ex & Hx).
    destruct (pinned64 x _ h (sv, tv, pp) Hx V) as (x' & Es & Lx & E0 & HS).
    exists x'. split; [exact Hpr|]. split; [exact Ip|]. split; [exact Wsv|]. split; [exact Wtv|].
    split; [unfold iv64; intros i ->; reflexivity|]. split; [eapply within_mono; [|exact Wi]; unfold W in *; lra|].
    split; [exact Lx|]. split; [exact E0|]. split; [|exact HS].
    intros fuel Hf. unfold isopycnal. cbn [shape build]. rewrite (proj2 (check_ref_iff Anomaly (refof2 ref) iso (CTuple t) (PFloat pp) (sh ++ [n]))).
    2:{ split; [destruct ref; cbn; [right|]; split; discriminate|].
        split; [destruct ref; reflexivity|]. split; [eapply can_index64; exact Ht|discriminate]. }
    cbn [bind].
    replace (choose_ref_isoval eos ppc_fn Anomaly (refof2 ref) iso (CTuple t) (PFloat pp) casts)
      with (@Ok (@refarg f64 * f64) (RPair (Some (fst rv)) (Some (snd rv)), iv64)).
    2:{ symmetry. unfold choose_ref_isoval, iv64. destruct iso as [i|].
        - unfold rv. destruct ref as [r|]; [reflexivity|]. discriminate (Hri eq_refl).
        - rewrite (column_at64 h t Ht). cbn [bind snd]. rewrite Ev. cbn [bind]. unfold rv in *. destruct ref as [r|]; cbn [bind fst snd] in *; [rewrite Ey; cbn [bind]; rewrite Ey0; reflexivity|].
          assert (Eyy : y0 = y) by congruence. rewrite Ey. cbn [bind]. rewrite Eyy. reflexivity. }
    cbn [bind solve_surface elems build]. rewrite <- (surjective_pairing rv) in Ex. rewrite Ex by (apply cols_fuel; exact Hf). cbn [bind].
    change (mk_nd sh (map c (all_idx sh))) with (build sh c). rewrite (column_at64 h t Ht). cbn [bind fst snd]. rewrite Ev. cbn [bind fst snd]. rewrite Es. reflexivity.
  Qed.

  (** without a pinning point *)
  Lemma potential_unpinned64 n (ref iso : f64) : finite64 ref -> 0 <= fval ref <= pm -> finite64 iso -> Rabs (fval iso) <= B ->
    exists x, length x = prod sh
      /\ (forall fuel, fueled fuel -> isopycnal eos ppc_fn fuel Potential (RFloat ref) (Some iso) CNone PNone n casts tol = Ok (x, RFloat ref, iso))
      /\ (forall h, valid sh h -> surface_point64 rel (potential_of rho (fval ref) (fval iso)) (fval tol) e d' (c' h) (at_pos sh x h)).
  Proof.
    intros Fr Hr Fi Bi.
    destruct (potential_64 eos rho s0 pm e (dec 3 (-12)) d B d' Hpm Heos (Rle_refl _) Hd0 Hd1 HB Hd' Hc ppc_fn rel Hs0 Hppc tol Ftol Htol ref iso
      _ _ Fr Hr Fi Bi cols_hold cols_any cols_in cols_spaced) as (x & Ex & Hx).
    exists x. split; [exact (cols_length _ _ Hx)|]. split; [|intros h V; exact (cols_point _ _ h Hx V)].
    intros fuel Hf. unfold isopycnal. rewrite (proj2 (check_ref_iff Potential (RFloat ref) (Some iso) CNone PNone _)).
    2:{ cbn. repeat split; auto; discriminate. }
    cbn [bind choose_ref_isoval solve_surface]. rewrite Ex by (apply cols_fuel; exact Hf). reflexivity.
  Qed.
  Lemma anomaly_unpinned64 n (sr tr iso : f64) : finite64 sr -> s0 <= fval sr <= 42 -> finite64 tr -> -3 <= fval tr <= 40 -> finite64 iso -> Rabs (fval iso) <= B ->
    exists x, length x = prod sh
      /\ (forall fuel, fueled fuel -> isopycnal eos ppc_fn fuel Anomaly (RPair (Some sr) (Some tr)) (Some iso) CNone PNone n casts tol
            = Ok (x, RPair (Some sr) (Some tr), iso))
      /\ (forall h, valid sh h -> surface_point64 rel (anomaly_of rho (fval sr) (fval tr) (fval iso)) (fval tol) e (2 * d') (c' h) (at_pos sh x h)).
  Proof.
    intros Fs Hs Ft Ht Fi Bi.
    destruct (anomaly_64 eos rho s0 pm e (dec 3 (-12)) d B d' Hpm Heos (Rle_refl _) Hd0 He0 Hd1 HB Hd' Hc ppc_fn rel Hs0 Hppc tol Ftol Htol sr tr iso
      _ _ Fs Hs Ft Ht Fi Bi cols_hold cols_any cols_in cols_spaced) as (x & Ex & Hx).
    exists x. split; [exact (cols_length _ _ Hx)|]. split; [|intros h V; exact (cols_point _ _ h Hx V)].
    intros fuel Hf. unfold isopycnal. rewrite (proj2 (check_ref_iff Anomaly (RPair (Some sr) (Some tr)) (Some iso) CNone PNone _)).
    2:{ cbn. repeat split; auto; discriminate. }
    cbn [bind choose_ref_isoval solve_surface]. rewrite Ex by (apply cols_fuel; exact Hf). reflexivity.
  Qed.
End Entry.

(** ** Equations of state by name *)
Lemma unit64 (g r : f64) : finite64 g -> finite64 r -> 1 <= fval g <= 1000 -> 1 <= fval r <= 100000 ->
  S_float.within (mul (mul (lit 1 (-4)) g) r : f64) (fval g * fval r / 10000) (dec 4 (-16) * (fval g * fval r / 10000)).
Proof.
  intros Fg Fr Hg Hr. pose proof eta_1e30 as Ee. pose proof eta64_pos as E0.
  assert (U : u64 = / 9007199254740992) by reflexivity.
  assert (D : dec 4 (-16) = 4 / 10000000000000000) by (unfold dec; simpl; lra). rewrite D.
  assert (L : Rlit 1 (-4) = / 10000) by (unfold Rlit; simpl; lra).
  assert (Q0 : Rabs (Rlit 1 (-4)) <= 1000000) by (rewrite L; apply Rabs_le; lra).
  destruct (sf_lit_near 1 (-4) (small_big _ Q0)) as [Fa Ea]. rewrite L, (Rabs_pos_eq (/ 10000)) in Ea by lra.
  change (sf_lit 1 (-4)) with (lit 1 (-4) : f64) in *. set (a := lit 1 (-4) : f64) in *. clearbody a.
  apply abs_le_of in Ea. rewrite U in *.
  assert (Ha : / 10000 * (1 - 112 / 1000000000000000000) <= fval a <= / 10000 * (1 + 112 / 1000000000000000000)) by lra.
  assert (Ag : / 10000 * (1 - 112 / 1000000000000000000) * fval g <= fval a * fval g <= / 10000 * (1 + 112 / 1000000000000000000) * fval g)
    by (split; apply Rmult_le_compat_r; lra).
  assert (Q1 : Rabs (fval a * fval g) <= 1000000) by (apply Rabs_le; lra).
  destruct (sf_mul_near a g Fa Fg (small_big _ Q1)) as [Fb Eb]. change (sf_mul a g) with (mul a g) in *.
  rewrite (Rabs_pos_eq (fval a * fval g)) in Eb by lra. rewrite U in Eb. apply abs_le_of in Eb.
  set (b := mul a g) in *. clearbody b. set (ag := fval a * fval g) in *. clearbody ag.
  assert (Hb : / 10000 * (1 - 224 / 1000000000000000000) * fval g <= fval b <= / 10000 * (1 + 224 / 1000000000000000000) * fval g) by lra.
  assert (Br : / 10000 * (1 - 224 / 1000000000000000000) * fval g * fval r <= fval b * fval r <= / 10000 * (1 + 224 / 1000000000000000000) * fval g * fval r)
    by (split; apply Rmult_le_compat_r; lra).
  assert (P1 : 1 * 1 <= fval g * fval r) by (apply Rmult_le_compat; lra).
  assert (P2 : fval g * fval r <= 1000 * 100000) by (apply Rmult_le_compat; lra).
  rewrite !Rmult_assoc in Br. set (gr := fval g * fval r) in *. clearbody gr.
  assert (Q2 : Rabs (fval b * fval r) <= 1000000) by (apply Rabs_le; lra).
  destruct (sf_mul_near b r Fb Fr (small_big _ Q2)) as [Fc Ec]. change (sf_mul b r) with (mul b r) in *.
  rewrite (Rabs_pos_eq (fval b * fval r)) in Ec by lra. rewrite U in Ec. apply abs_le_of in Ec.
  split; [exact Fc|]. set (br := fval b * fval r) in *. clearbody br. apply Rabs_le. lra.
Qed.

Lemma base_named name v s0 e d B : named_eos name v -> limits64 name s0 e d B ->
  exists f, base64 f v s0 e d B /\ forall grav rho_c, _process_eos sdiv (AStr name) grav rho_c false
    = Ok (match grav, rho_c with
          | Some g, Some r => F1 (fun s t z => f s t (mul z (mul (mul (lit 1 (-4)) g) r)))
          | _, _ => F1 f
          end, None).
Proof.
  intros [| |] HL; inversion HL; subst.
  - exists gsw_specvol. split; [constructor; assumption|]. intros [g|] [r|]; reflexivity.
  - exists (jmd95_rho sdiv). split; [constructor; [left; reflexivity|assumption]|]. intros [g|] [r|]; reflexivity.
  - exists (jmdfwg06_rho sdiv). split; [constructor; [left; reflexivity|assumption]|]. intros [g|] [r|]; reflexivity.
Qed.

Lemma entry_eos name v s0 e d' B grav rho_c zp pm : named_eos name v -> limits64 name s0 e d' B -> coordinate64 grav rho_c zp pm ->
  exists f d, _process_eos sdiv (AStr name) grav rho_c false = Ok (F1 f, None)
  /\ pm <= 10000 /\ eos64_on (sea s0 pm) f (at_depth zp v) e e (dec 3 (-12)) d B /\ 0 <= d /\ d <= / 1000 /\ 0 <= B <= 10000
  /\ d + 3 * (u64 * (B + d) + eta64) <= d' /\ 0 <= s0 /\ continuous3 (sea s0 pm) (at_depth zp v).
Proof.
  intros Hn HL Hco. destruct (base_named name v s0 e d' B Hn HL) as (f & Hb & Ef).
  assert (P : forall f' , named64 f' v s0 10000 e d' B -> _process_eos sdiv (AStr name) grav rho_c false = Ok (F1 f', None) -> zp = 1 -> pm = 10000 ->
     exists f d, _process_eos sdiv (AStr name) grav rho_c false = Ok (F1 f, None)
  /\ pm <= 10000 /\ eos64_on (sea s0 pm) f (at_depth zp v) e e (dec 3 (-12)) d B /\ 0 <= d /\ d <= / 1000 /\ 0 <= B <= 10000
  /\ d + 3 * (u64 * (B + d) + eta64) <= d' /\ 0 <= s0 /\ continuous3 (sea s0 pm) (at_depth zp v)).
  { intros f' H E -> ->. destruct (named64_ok _ _ _ _ _ _ _ H) as (d & H0 & H1 & H2 & H3 & H4 & H5 & _ & H6 & H7).
    exists f', d. split; [exact E|]. split; [lra|]. split; [|split; [exact H2|split; [exact H3|split; [exact H4|split; [exact H5|split; [exact H6|]]]]]].
    - intros s t p vs vt vp. unfold at_depth. rewrite Rmult_1_r. apply H1.
    - intros a b c x Ha Hb' Hc Da Db Dc. apply (cont_ext (fun x => v (a x) (b x) (c x))); [intros y; unfold at_depth; rewrite Rmult_1_r; reflexivity|].
      apply (H7 a b c); assumption. }
  unfold coordinate64 in Hco. destruct grav as [g|]; [destruct rho_c as [r|]|].
  - destruct Hco as (Fg & Fr & Hg & Hr & -> & Hz & Hpm & Hpz). set (fz := mul (mul (lit 1 (-4)) g) r : f64) in *.
    assert (N : named64 (fun s t z => f s t (mul z fz)) (at_depth (fval g * fval r / 10000) v) s0 pm e d' B).
    { apply depth_64; try assumption. apply unit64; assumption. }
    destruct (named64_ok _ _ _ _ _ _ _ N) as (d & H0 & H1 & H2 & H3 & H4 & H5 & _ & H6 & H7).
    exists (fun s t z => f s t (mul z fz)), d. split; [exact (Ef (Some g) (Some r))|]. split; [exact H0|]. split; [exact H1|]. auto 10.
  - destruct Hco as [Hz Hp]. apply (P f); [constructor; exact Hb|exact (Ef (Some g) None)|exact Hz|exact Hp].
  - destruct Hco as [Hz Hp]. apply (P f); [constructor; exact Hb|exact (Ef None rho_c)|exact Hz|exact Hp].
Qed.

(** ** The entry points *)
Section EntryNamed.
  Variables (interp : string) (ppc : f64 -> list f64 -> list f64 -> res (list (list f64))) (rel : nat -> (nat -> R) -> (nat -> R) -> (R -> R) -> Prop) (e : R).
  Hypothesis Hsch : scheme64 interp ppc rel e.
  Variables (name : string) (v : R -> R -> R -> R) (s0 d B : R) (grav rho_c : option f64) (zp pm : R).
  Hypotheses (Hname : named_eos name v) (Hlim : limits64 name s0 e d B) (Hco : coordinate64 grav rho_c zp pm).
  Variables (S T P : @data f64) (vd : vdim) (s1 : list nat) (n : nat) (s2 : list nat) (c : list nat -> column64) (c' : list nat -> column).
  Hypothesis Hw : water_columns S T P vd s1 n s2 c.
  Hypothesis Hcol : forall h, valid (s1 ++ s2) h -> holds_column (c h) (c' h) /\ any_cast (c' h) /\ cast_in (sea s0 pm) (c' h) /\ column_spaced (c' h).
  Variables (tol : f64).
  Hypotheses (Ftol : finite64 tol) (Htol : tolerance_ok (fval tol)).
  Variables (grid : @gridarg f64) (index : string -> option (list f64)) (junk : f64).
  Notation sh := (s1 ++ s2).
  Notation fueled fuel := (forall h, valid (s1 ++ s2) h -> enough_fuel64 fuel (fval tol) (c' h)).
  Notation args ref iso pin pin_p := (mkIso ref iso pin pin_p vd tol (AStr name) rho_c grav false grid interp).

  Lemma scheme_made : exists nm, make_pp interp "1" "coeffs" false 1 = Ok nm /\ ppc_named junk nm = ppc junk.
  Proof. destruct Hsch; [exists "linear_coeffs_1"%string|exists "pchip_coeffs_1_nonan"%string]; split; reflexivity. Qed.
  Lemma entry_run f pin t ref iso pin_p x : _process_eos sdiv (AStr name) grav rho_c false = Ok (F1 f, None) ->
    pin_of pin S index = Ok t -> length x = prod sh ->
    exists s' t' p', S_surfaces.holds S T s1 s2 s' t' p' (at_pos sh x)
      /\ forall fuel a rv iv, isopycnal f (ppc junk) fuel a ref iso t pin_p n (build sh c) tol = Ok (x, rv, iv) ->
         isopycnal_surf junk fuel a S T P index (args ref iso pin pin_p) = Ok (s', t', p', mkIsoDiags rv iv None).
  Proof.
    intros Ee Hpin Lx.
    destruct scheme_made as (nm & Hm & Hp).
    destruct (isopycnal_surf_ok S T P s1 n s2 c index junk (args ref iso pin pin_p) nm t f None x Hw Hm Hpin Ee
      ltac:(discriminate) Lx) as (s' & t' & p' & Hh & H).
    exists s', t', p'. split; [exact Hh|]. intros fuel a rv iv E. rewrite <- Hp in E. exact (H None eq_refl fuel a rv iv E).
  Qed.

  Lemma potential_entry64 (ref iso : f64) : finite64 ref -> 0 <= fval ref <= pm -> finite64 iso -> Rabs (fval iso) <= B ->
    exists s t p x, S_surfaces.holds S T s1 s2 s t p x
      /\ (forall fuel, fueled fuel -> potential_surf junk fuel S T P index (args (RFloat ref) (Some iso) ANone PNone)
            = Ok (s, t, p, mkIsoDiags (RFloat ref) iso None))
      /\ (forall h, valid sh h -> surface_point64 rel (potential_of (at_depth zp v) (fval ref) (fval iso)) (fval tol) e d (c' h) (x h)).
  Proof.
    intros Fr Hr Fi Bi. destruct (entry_eos name v s0 e d B grav rho_c zp pm Hname Hlim Hco) as (f & d0 & Ee & H0 & H1 & H2 & H3 & H4 & H5 & H6 & H7).
    destruct (potential_unpinned64 f _ s0 pm d0 B d e H0 H1 H2 H3 H4 H5 H6 H7 (ppc junk) rel (scheme_sea _ _ _ _ junk Hsch) tol Ftol Htol sh c c' Hcol n ref iso Fr Hr Fi Bi) as (x & Lx & Ex & Hx).
    destruct (entry_run f ANone CNone (RFloat ref) (Some iso) PNone x Ee eq_refl Lx) as (s & t & p & Hh & H).
    exists s, t, p, (at_pos sh x). split; [exact Hh|]. split; [|exact Hx]. intros fuel Hf. apply H, Ex, Hf.
  Qed.
  Lemma anomaly_entry64 (sr tr iso : f64) : finite64 sr -> s0 <= fval sr <= 42 -> finite64 tr -> -3 <= fval tr <= 40 -> finite64 iso -> Rabs (fval iso) <= B ->
    exists s t p x, S_surfaces.holds S T s1 s2 s t p x
      /\ (forall fuel, fueled fuel -> anomaly_surf junk fuel S T P index (args (RPair (Some sr) (Some tr)) (Some iso) ANone PNone)
            = Ok (s, t, p, mkIsoDiags (RPair (Some sr) (Some tr)) iso None))
      /\ (forall h, valid sh h ->
            surface_point64 rel (anomaly_of (at_depth zp v) (fval sr) (fval tr) (fval iso)) (fval tol) e (2 * d) (c' h) (x h)).
  Proof.
    intros Fs Hs Ft Ht Fi Bi. destruct (entry_eos name v s0 e d B grav rho_c zp pm Hname Hlim Hco) as (f & d0 & Ee & H0 & H1 & H2 & H3 & H4 & H5 & H6 & H7).
    destruct (anomaly_unpinned64 f _ s0 pm d0 B d e (scheme_pos _ _ _ _ Hsch) H0 H1 H2 H3 H4 H5 H6 H7 (ppc junk) rel (scheme_sea _ _ _ _ junk Hsch) tol Ftol Htol sh c c' Hcol n sr tr iso Fs Hs Ft Ht Fi Bi) as (x & Lx & Ex & Hx).
    destruct (entry_run f ANone CNone (RPair (Some sr) (Some tr)) (Some iso) PNone x Ee eq_refl Lx) as (s & t & p & Hh & H).
    exists s, t, p, (at_pos sh x). split; [exact Hh|]. split; [|exact Hx]. intros fuel Hf. apply H, Ex, Hf.
  Qed.

  Lemma pin_tuple_of pin t : pin_tuple64 pin t -> pin_of pin S index = Ok (CTuple t).
  Proof. intros [-> |(z & -> & ->)]; reflexivity. Qed.

  Lemma potential_pin_entry64 pin t h0 (pp : f64) (ref iso : option f64) : pin_tuple64 pin t -> indexes sh h0 t -> finite64 pp -> has_pressure (c' h0) (fval pp) ->
    (ref = None -> iso = None) -> (forall r, ref = Some r -> finite64 r /\ 0 <= fval r <= pm) -> (forall i, iso = Some i -> finite64 i /\ Rabs (fval i) <= B) ->
    exists s t p x gS gT lo hi sv tv iv64, let rv := match ref with Some r => r | None => pp end in
      let iv := match iso with Some i => fval i | None => at_depth zp v (gS (fval pp)) (gT (fval pp)) (fval rv) end in
      S_surfaces.holds S T s1 s2 s t p x
      /\ (forall fuel, fueled fuel ->
            potential_surf junk fuel S T P index (args (match ref with Some r => RFloat r | None => RNone end) iso pin (PFloat pp))
            = Ok (s, t, p, mkIsoDiags (RFloat rv) iv64 None))
      /\ profile rel (c' h0) gS gT lo hi /\ lo <= fval pp <= hi
      /\ x h0 = (sv, tv, pp) /\ S_float.within sv (gS (fval pp)) e /\ S_float.within tv (gT (fval pp)) e
      /\ (forall i, iso = Some i -> iv64 = i) /\ S_float.within iv64 iv d
      /\ (forall h, valid sh h -> h <> h0 -> surface_point64 rel (potential_of (at_depth zp v) (fval rv) iv) (fval tol) e (2 * d) (c' h) (x h)).
  Proof.
    intros Hp Ht Fpp Hpp Hri Hr Hi. destruct (entry_eos name v s0 e d B grav rho_c zp pm Hname Hlim Hco) as (f & d0 & Ee & H0 & H1 & H2 & H3 & H4 & H5 & H6 & H7).
    destruct (potential_pinned64 f _ s0 pm d0 B d e H0 H1 H2 H3 H4 H5 H6 H7 (ppc junk) rel (scheme_sea _ _ _ _ junk Hsch) (scheme_keeps _ _ _ _ junk Hsch) tol Ftol Htol sh c c' Hcol n t h0 pp ref iso Ht Fpp Hpp Hri Hr Hi)
      as (gS & gT & lo & hi & sv & tv & iv64 & x & Hpr & Ip & Wsv & Wtv & Ei & Wi & Lx & E0 & Ex & Hx).
    destruct (entry_run f pin (CTuple t) (match ref with Some r => RFloat r | None => RNone end) iso (PFloat pp) x Ee (pin_tuple_of pin t Hp) Lx)
      as (s & t' & p & Hh & H).
    exists s, t', p, (at_pos sh x), gS, gT, lo, hi, sv, tv, iv64. cbv zeta in *. split; [exact Hh|]. split; [intros fuel Hf; apply H, Ex, Hf|].
    split; [exact Hpr|]. split; [exact Ip|]. split; [exact E0|]. split; [exact Wsv|]. split; [exact Wtv|]. split; [exact Ei|].
    split; [|exact Hx]. eapply within_mono; [|exact Wi]. pose proof (W_small d0 B H2 H3 H4). lra.
  Qed.
  Lemma anomaly_pin_entry64 pin t h0 (pp : f64) (ref : option (f64 * f64)) (iso : option f64) : pin_tuple64 pin t -> indexes sh h0 t ->
    finite64 pp -> has_pressure (c' h0) (fval pp) -> (ref = None -> iso = None) ->
    (forall r, ref = Some r -> finite64 (fst r) /\ s0 <= fval (fst r) <= 42 /\ finite64 (snd r) /\ -3 <= fval (snd r) <= 40) ->
    (forall i, iso = Some i -> finite64 i /\ Rabs (fval i) <= B) ->
    exists s t p x gS gT lo hi sv tv iv64, let rv := match ref with Some r => r | None => (sv, tv) end in
      let '(rs, rt) := match ref with Some r => (fval (fst r), fval (snd r)) | None => (gS (fval pp), gT (fval pp)) end in
      let iv := match iso with Some i => fval i | None => at_depth zp v (gS (fval pp)) (gT (fval pp)) (fval pp) - at_depth zp v rs rt (fval pp) end in
      S_surfaces.holds S T s1 s2 s t p x
      /\ (forall fuel, fueled fuel ->
            anomaly_surf junk fuel S T P index (args (match ref with Some r => RPair (Some (fst r)) (Some (snd r)) | None => RNone end) iso pin (PFloat pp))
            = Ok (s, t, p, mkIsoDiags (RPair (Some (fst rv)) (Some (snd rv))) iv64 None))
      /\ profile rel (c' h0) gS gT lo hi /\ lo <= fval pp <= hi
      /\ x h0 = (sv, tv, pp) /\ S_float.within sv (gS (fval pp)) e /\ S_float.within tv (gT (fval pp)) e
      /\ (forall i, iso = Some i -> iv64 = i) /\ S_float.within iv64 iv (2 * d)
      /\ (forall h, valid sh h -> h <> h0 -> surface_point64 rel (anomaly_of (at_depth zp v) rs rt iv) (fval tol) e (4 * d) (c' h) (x h)).
  Proof.
    intros Hp Ht Fpp Hpp Hri Hr Hi. destruct (entry_eos name v s0 e d B grav rho_c zp pm Hname Hlim Hco) as (f & d0 & Ee & H0 & H1 & H2 & H3 & H4 & H5 & H6 & H7).
    destruct (anomaly_pinned64 f _ s0 pm d0 B d e (scheme_pos _ _ _ _ Hsch) H0 H1 H2 H3 H4 H5 H6 H7 (ppc junk) rel (scheme_sea _ _ _ _ junk Hsch) (scheme_keeps _ _ _ _ junk Hsch) tol Ftol Htol sh c c' Hcol n t h0 pp ref iso Ht Fpp Hpp Hri Hr Hi)
      as (gS & gT & lo & hi & sv & tv & iv64 & x & HH).
    cbv zeta in HH.
    assert (Lx : length x = prod sh) by (destruct (match ref with Some r => (fval (fst r), fval (snd r)) | None => (gS (fval pp), gT (fval pp)) end); apply HH).
    destruct (entry_run f pin (CTuple t) (match ref with Some r => RPair (Some (fst r)) (Some (snd r)) | None => RNone end) iso (PFloat pp) x Ee (pin_tuple_of pin t Hp) Lx)
      as (s & t' & p & Hh & H).
    exists s, t', p, (at_pos sh x), gS, gT, lo, hi, sv, tv, iv64. cbv zeta.
    destruct (match ref with Some r => (fval (fst r), fval (snd r)) | None => (gS (fval pp), gT (fval pp)) end) as [rs rt].
    destruct HH as (Hpr & Ip & Wsv & Wtv & Ei & Wi & _ & E0 & Ex & Hx).
    split; [exact Hh|]. split; [intros fuel Hf; apply H, Ex, Hf|].
    split; [exact Hpr|]. split; [exact Ip|]. split; [exact E0|]. split; [exact Wsv|]. split; [exact Wtv|]. split; [exact Ei|].
    split; [exact Wi|exact Hx].
  Qed.
End EntryNamed.
