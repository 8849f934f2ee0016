(** * The Veronis density in binary64: the integral *)
From Coq Require Import ZArith Bool Reals Lra Lia List SpecFloat.
From Coquelicot Require Import Coquelicot.
From Flocq Require Import Core.
From Verif Require Import Num XR SF Res Arr ArrLemmas XRlemmas M_numpy M_ppinterp M_label S_interp S_eos S_float S_vert64 S_label P_float P_fl P_holds P_linear64 P_coeffs
  P_ppinterp P_pval P_interp P_interp2 P_quad P_label P_label2 P_label3 P_quad64 P_linspace64 P_label64.
Import ListNotations.
Local Open Scope R_scope.

Lemma tri5 a b c d e : Rabs (a + b + c + d + e) <= Rabs a + Rabs b + Rabs c + Rabs d + Rabs e.
Proof.
  pose proof (Rabs_triang (a + b + c + d) e). pose proof (Rabs_triang (a + b + c) d). pose proof (Rabs_triang (a + b) c). pose proof (Rabs_triang a b). lra.
Qed.

Section Int64.
  Variables (s0 pm : R) (geos : f64 -> f64 -> f64 -> res (f64 * f64)) (rs rt : R -> R -> R -> R) (er Br : R).
  Hypothesis Hgeos : st64 s0 pm geos rs rt er Br.
  Hypotheses (S0 : 0 <= s0) (Pm : pm <= 10000) (Er : 0 <= er <= / 1000 * Br) (HBr : powerRZ 2 (-40) <= Br <= powerRZ 2 10).
  Variables (Sa Ta Pa : list f64) (S' T' P' : list xr) (K : nat) (ss ts ps : nat -> R).
  Hypotheses (HS : holds_all Sa S') (HT : holds_all Ta T') (HP : holds_all Pa P').
  Hypothesis HPf : profile S' T' P' K ss ts ps.
  Hypothesis Hsp : forall i, (S i < K)%nat -> / 1000 <= ps (S i) - ps i.
  Hypothesis Hw : forall i, (i < K)%nat -> (s0 <= ss i <= 42 /\ 0 < ss i) /\ -3 <= ts i <= 40 /\ 0 <= ps i <= pm.
  Hypothesis HK : INR K <= powerRZ 2 40.
  Variables (Sppc Tppc : list (list f64)).
  Hypothesis HSc : forall i, (i + 1 < length Pa)%nat -> nth_error Sppc i = Some [div (sub (nth (i + 1) Sa nan) (nth i Sa nan)) (sub (nth (i + 1) Pa nan) (nth i Pa nan)); nth i Sa nan].
  Hypothesis HTc : forall i, (i + 1 < length Pa)%nat -> nth_error Tppc i = Some [div (sub (nth (i + 1) Ta nan) (nth i Ta nan)) (sub (nth (i + 1) Pa nan) (nth i Pa nan)); nth i Ta nan].
  Variable dp : f64.
  Hypotheses (Fdp : finite64 dp) (Hdp : / 1000 <= fval dp <= 5000).
  Variables (f g : R -> R).
  Notation lS i x := (ss i + (x - ps i) * secant ps ss i).
  Notation lT i x := (ts i + (x - ps i) * secant ps ts i).
  Hypothesis Hf : forall i x, (S i < K)%nat -> ps i <= x <= ps (S i) -> f x = rs (lS i x) (lT i x) x.
  Hypothesis Hg : forall i x, (S i < K)%nat -> ps i <= x <= ps (S i) -> g x = rt (lS i x) (lT i x) x.
  Hypotheses (Cf : forall x, continuity_pt f x) (Cg : forall x, continuity_pt g x).
  Notation Y := (yk ps (lin_c ps ss) (lin_c ps ts) f g).
  Variable eT : R.
  Hypothesis HeT : 0 <= eT.
  Hypothesis Hstep : step_error K ps (lin_c ps ss) (lin_c ps ts) (fval dp * (1 + powerRZ 2 (-20))) f g eT.
  Notation kp := (kap er Br dp).

  Lemma levP i : (i < K)%nat -> nth_error Pa i = Some (nth i Pa nan) /\ finite64 (nth i Pa nan) /\ fval (nth i Pa nan) = ps i.
  Proof.
    intros Hi. destruct (holds_get Pa P' i _ HP (HP_pf _ _ _ _ _ _ _ HPf i Hi)) as (x & Ex & Fx & Vx). rewrite (nth_error_nth _ _ _ Ex). auto.
  Qed.
  Lemma levS i : (i < K)%nat -> finite64 (nth i Sa nan) /\ fval (nth i Sa nan) = ss i.
  Proof.
    intros Hi. destruct (holds_get Sa S' i _ HS (blk_Y _ _ _ _ _ _ (pf_S _ _ _ _ _ _ _ HPf) i ltac:(lia))) as (x & Ex & Fx & Vx). rewrite (nth_error_nth _ _ _ Ex). auto.
  Qed.
  Lemma levT i : (i < K)%nat -> finite64 (nth i Ta nan) /\ fval (nth i Ta nan) = ts i.
  Proof.
    intros Hi. destruct (holds_get Ta T' i _ HT (blk_Y _ _ _ _ _ _ (pf_T _ _ _ _ _ _ _ HPf) i ltac:(lia))) as (x & Ex & Fx & Vx). rewrite (nth_error_nth _ _ _ Ex). auto.
  Qed.
  Lemma lenP : (K <= length Pa)%nat.
  Proof.
    pose proof (pf_two _ _ _ _ _ _ _ HPf). destruct (levP (K - 1) ltac:(lia)) as (E & _). pose proof (nth_error_lt _ _ _ E). lia.
  Qed.

  Definition wi (i : nat) : R := Rabs (ss (S i) - ss i) + Rabs (ts (S i) - ts i) + 2 * tau.

  Lemma lay i (a : f64) : (S i < K)%nat -> finite64 a -> ps i <= fval a <= ps (S i) ->
    exists x, _int_x_k a i dp Pa Sppc Tppc geos = Ok x /\ finite64 x
      /\ Rabs (fval x - RInt (Y i) (fval a) (ps (S i))) <= eT * (ps (S i) - fval a) + wi i * kp
      /\ Rabs (fval x) <= 132 / 100 * (Br * wi i).
  Proof.
    intros Hi Fa Ha. assert (L := lenP).
    destruct (levP i ltac:(lia)) as (Ei & FPi & VPi). destruct (levP (S i) ltac:(lia)) as (Ej & FPj & VPj).
    destruct (levS i ltac:(lia)) as (FSi & VSi). destruct (levS (S i) ltac:(lia)) as (FSj & VSj).
    destruct (levT i ltac:(lia)) as (FTi & VTi). destruct (levT (S i) ltac:(lia)) as (FTj & VTj).
    assert (C1 := HSc i ltac:(lia)). assert (C2 := HTc i ltac:(lia)). replace (i + 1)%nat with (S i) in C1, C2 by lia.
    set (Pi := nth i Pa nan) in *. set (Pj := nth (S i) Pa nan) in *. set (Si := nth i Sa nan) in *. set (Sj := nth (S i) Sa nan) in *.
    set (Ti := nth i Ta nan) in *. set (Tj := nth (S i) Ta nan) in *.
    destruct (Hw i ltac:(lia)) as ((A1 & A2) & A3 & A4). destruct (Hw (S i) ltac:(lia)) as ((B1 & B2) & B3 & B4). assert (Hs := Hsp i Hi).
    assert (kS : (fval Sj - fval Si) / (fval Pj - fval Pi) = secant ps ss i) by (unfold secant, width; rewrite VSj, VSi, VPj, VPi; reflexivity).
    assert (kT : (fval Tj - fval Ti) / (fval Pj - fval Pi) = secant ps ts i) by (unfold secant, width; rewrite VTj, VTi, VPj, VPi; reflexivity).
    assert (EY : forall x, Yr Pi Pj Si Sj Ti Tj f g x = Y i x).
    { intros x. unfold Yr, yk. rewrite kS, kT. unfold lin_c. change (pval (x - ps i) [secant ps ss i; ss i] 1) with (Rlit 0 0 * (x - ps i) + secant ps ss i * (Rlit 1 0 * of_nat 1)).
      change (pval (x - ps i) [secant ps ts i; ts i] 1) with (Rlit 0 0 * (x - ps i) + secant ps ts i * (Rlit 1 0 * of_nat 1)). rewrite of_nat_R, !Rlit_0. cbn [INR]. ring. }
    assert (ER : forall a b, RInt (Yr Pi Pj Si Sj Ti Tj f g) a b = RInt (Y i) a b) by (intros; apply RInt_ext; intros; apply EY).
    destruct (layer64 s0 pm geos rs rt er Br Hgeos S0 Pm Er HBr Pi Pj Si Sj Ti Tj dp FPi FPj FSi FSj FTi FTj Fdp) with (f := f) (g := g) (eT := eT) (a := a) (P := Pa) (Sppc := Sppc) (Tppc := Tppc) (k := i)
      as (x & Ex & Fx & Vx & Bx); rewrite ?VPi, ?VPj, ?VSi, ?VSj, ?VTi, ?VTj; trivial; try lra.
    - intros x Hx. unfold secant, width in *. apply (Hf i); assumption.
    - intros x Hx. apply (Hg i); assumption.
    - intros u v H1 H2 H3 H4. rewrite ER, !EY. apply Hstep; trivial.
    - replace (i + 1)%nat with (S i) by lia. apply get_ok. exact Ej.
    - apply get_ok. exact Ei.
    - apply get_ok. exact C1.
    - apply get_ok. exact C2.
    - exists x. split; [exact Ex|]. split; [exact Fx|]. rewrite ER, VPj in Vx. unfold w64 in Vx, Bx. rewrite VSi, VSj, VTi, VTj in Vx, Bx. split; [exact Vx|exact Bx].
  Qed.

  (** sums over whole layers *)
  Fixpoint Isum (a n : nat) : R := match n with O => 0 | S n => RInt (Y a) (ps a) (ps (S a)) + Isum (S a) n end.
  Fixpoint sw (a n : nat) : R := match n with O => 0 | S n => wi a + sw (S a) n end.
  Lemma wi_pos i : 0 < wi i.
  Proof. unfold wi. pose proof tau_pos. pose proof (Rabs_pos (ss (S i) - ss i)). pose proof (Rabs_pos (ts (S i) - ts i)). lra. Qed.
  Lemma sw_pos n : forall a, 0 <= sw a n.
  Proof. induction n as [|n IH]; intros a; cbn [sw]; [lra|]. specialize (IH (S a)). pose proof (wi_pos a). lra. Qed.
  Lemma sw_app n m : forall a, sw a (n + m) = sw a n + sw (a + n) m.
  Proof.
    induction n as [|n IH]; intros a; cbn [sw Nat.add]; [replace (a + 0)%nat with a by lia; ring|]. rewrite IH. replace (S a + n)%nat with (a + S n)%nat by lia. ring.
  Qed.
  Lemma sw_le a n : (a + n < K)%nat -> sw a n <= sw 0 (K - 1).
  Proof.
    intros H. replace (K - 1)%nat with (a + (n + (K - 1 - a - n)))%nat by lia. rewrite !sw_app. cbn [Nat.add].
    pose proof (sw_pos a 0). pose proof (sw_pos (K - 1 - a - n) (a + n)). lra.
  Qed.
  Lemma wi_ub i : (S i < K)%nat -> wi i <= 86.
  Proof.
    intros Hi. unfold wi. destruct (Hw i ltac:(lia)) as ((A1 & A2) & A3 & A4). destruct (Hw (S i) ltac:(lia)) as ((B1 & B2) & B3 & B4). pose proof tau_small as T1. simpl in T1.
    assert (Rabs (ss (S i) - ss i) <= 42) by (apply Rabs_le; lra). assert (Rabs (ts (S i) - ts i) <= 43) by (apply Rabs_le; lra). lra.
  Qed.
  Lemma sw_ub n : forall a, (a + n < K)%nat -> sw a n <= 86 * INR n.
  Proof.
    induction n as [|n IH]; intros a H; [cbn; lra|]. cbn [sw]. rewrite S_INR. specialize (IH (S a) ltac:(lia)). pose proof (wi_ub a ltac:(lia)). lra.
  Qed.

  Lemma Isum_RInt Yf : (forall i x, (S i < K)%nat -> ps i < x < ps (S i) -> Yf x = Y i x) -> forall n a, (a + n < K)%nat -> is_RInt Yf (ps a) (ps (a + n)%nat) (Isum a n).
  Proof.
    intros HY. induction n as [|n IH]; intros a H; cbn [Isum].
    - replace (a + 0)%nat with a by lia. apply (is_RInt_point (V := R_NormedModule)).
    - replace (a + S n)%nat with (S a + n)%nat by lia. apply (is_RInt_Chasles (V := R_NormedModule) _ _ (ps (S a))); [|apply IH; lia].
      pose proof (Hsp a ltac:(lia)). apply (Y_piece K ps (lin_c ps ss) (lin_c ps ts) f g Cf Cg Yf HY); try lra. lia.
  Qed.

  Notation body := (fun (k : nat) (d1 : f64) => let! Pk := get Pa k in let! x := _int_x_k Pk k dp Pa Sppc Tppc geos in Ok (add d1 x)).
  Lemma loop64 n : forall a, (a + n < K)%nat -> exists xs : list f64, length xs = n /\ List.Forall finite64 xs
    /\ (forall d, for_each (seq a n) body d = Ok (fold_left add xs d))
    /\ rsum (map (fun t => Rabs (fval t)) xs) <= 132 / 100 * (Br * sw a n)
    /\ Rabs (rsum (map fval xs) - Isum a n) <= eT * (ps (a + n)%nat - ps a) + sw a n * kp.
  Proof.
    induction n as [|n IH]; intros a H.
    - exists []. split; [reflexivity|]. split; [constructor|]. split; [reflexivity|]. cbn [map rsum fold_right Isum sw]. unfold rsum. cbn [fold_right]. replace (a + 0)%nat with a by lia.
      rewrite Rminus_0_r, Rabs_R0. split; lra.
    - destruct (IH (S a) ltac:(lia)) as (xs & L & Fs & E & B & V).
      destruct (levP a ltac:(lia)) as (Ea & FPa & VPa). pose proof (Hsp a ltac:(lia)).
      destruct (lay a (nth a Pa nan) ltac:(lia) FPa ltac:(lra)) as (x & Ex & Fx & Vx & Bx). rewrite VPa in Vx.
      exists (x :: xs). split; [cbn [length]; congruence|]. split; [constructor; assumption|]. split.
      + intros d. cbn [seq for_each fold_left]. rewrite (get_ok _ _ _ Ea). cbn [bind]. rewrite Ex. cbn [bind]. apply E.
      + unfold rsum in *. cbn [map fold_right Isum sw] in *. replace (a + S n)%nat with (S a + n)%nat by lia. split; [lra|].
        replace (_ - _) with ((fval x - RInt (Y a) (ps a) (ps (S a))) + (fold_right Rplus 0 (map fval xs) - Isum (S a) n)) by ring.
        eapply Rle_trans; [apply Rabs_triang|]. lra.
  Qed.

  Notation V := (sw 0 (K - 1) + / 1000).
  Notation pc p := (piece P' p).
  Variable Yf : R -> R.
  Hypothesis HYf : forall i x, (S i < K)%nat -> ps i < x < ps (S i) -> Yf x = Y i x.
  Variable W : R.
  Hypothesis HW : spacing K ps W.

  Definition core (p0 p1 : f64) : res f64 :=
    let k0 := Nat.max 1 (searchsorted Pa p0) in
    let k1 := Nat.max 1 (searchsorted Pa p1) in
    let! d1 := _int_x_k p0 (k0 - 1) dp Pa Sppc Tppc geos in
    let! d1 := for_range k0 k1 body d1 in
    let! x := _int_x_k p1 (k1 - 1) dp Pa Sppc Tppc geos in
    Ok (sub d1 x).

  Definition mean_err : R := V * (2 * kp + u64 * Br * (21 / 10 * INR K + 4)).

  Lemma core64 (p0 p1 : f64) : finite64 p0 -> finite64 p1 -> ps 0%nat <= fval p0 -> fval p0 <= fval p1 -> fval p1 <= ps (K - 1)%nat ->
    exists z I, core p0 p1 = Ok z /\ finite64 z /\ is_RInt Yf (fval p0) (fval p1) I
      /\ Rabs (fval z - I) <= eT * (fval p1 - fval p0 + 2 * W) + mean_err
      /\ Rabs (fval z) <= 34 / 10 * (Br * V).
  Proof.
    intros F0 F1 H0 H1 H2. pose proof u_is as U. assert (U0 := u64_pos). assert (E0 := eta64_pos). assert (Et := eta_tiny).
    assert (Br0 : 0 < Br) by (pose proof (pow2_pos (-40)); lra).
    assert (K2 := pf_two _ _ _ _ _ _ _ HPf).
    assert (PS := fun p Hp => piece_spec P' K ps (HP_pf _ _ _ _ _ _ _ HPf) (Hinc_pf _ _ _ _ _ _ _ HPf) K2 (pf_deep _ _ _ _ _ _ _ HPf) p Hp).
    assert (PM := piece_mono P' K ps (HP_pf _ _ _ _ _ _ _ HPf) (Hinc_pf _ _ _ _ _ _ _ HPf) K2 (pf_deep _ _ _ _ _ _ _ HPf) _ _ H0 H1 H2).
    destruct (PS (fval p0) ltac:(lra)) as (A0 & B0 & _ & S0'). destruct (PS (fval p1) ltac:(lra)) as (A1 & B1 & _ & S1').
    unfold core. rewrite (holds_searchsorted Pa P' p0 (Fin (fval p0)) HP) by (split; [exact F0|reflexivity]).
    rewrite (holds_searchsorted Pa P' p1 (Fin (fval p1)) HP) by (split; [exact F1|reflexivity]). rewrite S0', S1'. cbn [Nat.sub]. rewrite !Nat.sub_0_r.
    set (i0 := pc (fval p0)) in *. set (i1 := pc (fval p1)) in *. clearbody i0 i1. clear PS S0' S1'.
    destruct (lay i0 p0 A0 F0 B0) as (x0 & Ex0 & Fx0 & Vx0 & Bx0). destruct (lay i1 p1 A1 F1 B1) as (x1 & Ex1 & Fx1 & Vx1 & Bx1).
    destruct (loop64 (i1 - i0) (S i0) ltac:(lia)) as (xs & Lx & Fxs & Exs & Bxs & Vxs).
    rewrite Ex0. cbn [bind]. unfold for_range. replace (S i1 - S i0)%nat with (i1 - i0)%nat by lia. rewrite Exs. cbn [bind]. rewrite Ex1. cbn [bind].
    assert (IR := Isum_RInt Yf HYf (i1 - i0) (S i0) ltac:(lia)). replace (S i0 + (i1 - i0))%nat with (S i1) in IR, Vxs by lia.
    assert (SWT : wi i0 + sw (S i0) (i1 - i0) <= sw 0 (K - 1)) by (exact (sw_le i0 (S (i1 - i0)) ltac:(lia))).
    assert (SW1 : wi i1 <= sw 0 (K - 1)) by (pose proof (sw_le i1 1 ltac:(lia)) as Q; cbn [sw] in Q; lra).
    assert (SWP := sw_pos (i1 - i0) (S i0)). assert (WP0 := wi_pos i0). assert (WP1 := wi_pos i1).
    assert (SWU := sw_ub (K - 1) 0 ltac:(lia)). assert (NK : INR (K - 1) <= INR K) by (apply le_INR; lia).
    assert (nK : INR (i1 - i0) <= INR K) by (apply le_INR; lia). assert (n0 := pos_INR (i1 - i0)).
    assert (P40 : powerRZ 2 40 = 1099511627776) by (simpl; lra). assert (P10 : powerRZ 2 10 = 1024) by (simpl; lra).
    set (VV := V) in *. assert (VVe : VV = V) by reflexivity. assert (VV1 : / 1000 <= VV) by (unfold VV; lra).
    assert (VVu : VV <= 10 ^ 15) by (unfold VV; simpl; lra).
    assert (BV : 0 < Br * VV) by (apply Rmult_lt_0_compat; lra).
    assert (BVu : Br * VV <= 1024 * 10 ^ 15) by (apply Rmult_le_compat; lra).
    assert (BVl : powerRZ 2 (-40) * / 1000 <= Br * VV) by (apply Rmult_le_compat; try lra; left; apply pow2_pos).
    assert (uBV : 0 < u64 * (Br * VV)) by (apply Rmult_lt_0_compat; lra).
    assert (eB : eta64 <= / 100 * (u64 * (Br * VV))).
    { apply Rle_trans with (/ 10 ^ 60 * u64); [exact Et|]. apply Rle_trans with (/ 100 * (u64 * (powerRZ 2 (-40) * / 1000))); [|apply Rmult_le_compat_l; [lra|apply Rmult_le_compat_l; lra]].
      replace (/ 100 * (u64 * (powerRZ 2 (-40) * / 1000))) with ((/ 100 * (powerRZ 2 (-40) * / 1000)) * u64) by ring. apply Rmult_le_compat_r; [lra|]. simpl. lra. }
    assert (M0 : Br * wi i0 + Br * sw (S i0) (i1 - i0) <= Br * VV) by (rewrite <- Rmult_plus_distr_l; apply Rmult_le_compat_l; unfold VV; lra).
    assert (M1 : Br * wi i1 <= Br * VV) by (apply Rmult_le_compat_l; unfold VV; lra).
    assert (nB : INR (i1 - i0) * (u64 * (2 * (Br * VV)) + eta64) <= INR (i1 - i0) * (21 / 10 * (u64 * (Br * VV)))) by (apply Rmult_le_compat_l; lra).
    assert (nB2 : INR (i1 - i0) * (21 / 10 * (u64 * (Br * VV))) <= / 100 * (Br * VV)).
    { apply Rle_trans with (1099511627776 * (21 / 10 * (u64 * (Br * VV)))); [apply Rmult_le_compat_r; lra|]. rewrite U. lra. }
    destruct (fold_sum (2 * (Br * VV)) ltac:(lra)) with (l := xs) (acc := x0) as (Fd & Vd); trivial.
    { pose proof (big_ok (2 * (Br * VV))) as Q. rewrite Rabs_pos_eq in Q by lra. apply Q. simpl in *. lra. }
    { rewrite Lx. lra. }
    set (d := fold_left add xs x0 : f64) in *. clearbody d. rewrite Lx in Vd.
    set (sx := rsum (map fval xs)) in *.
    assert (RA : forall l : list f64, Rabs (rsum (map fval l)) <= rsum (map (fun t => Rabs (fval t)) l)).
    { clear. unfold rsum. induction l as [|t l IH]; cbn [map fold_right]; [rewrite Rabs_R0; lra|]. eapply Rle_trans; [apply Rabs_triang|]. lra. }
    specialize (RA xs). fold sx in RA. clearbody sx.
    assert (Bd : Rabs (fval d) <= 2 * (Br * VV)).
    { replace (fval d) with ((fval d - (fval x0 + sx)) + (fval x0 + sx)) by ring. eapply Rle_trans; [apply Rabs_triang|].
      assert (Rabs (fval x0 + sx) <= 132 / 100 * (Br * VV)) by (eapply Rle_trans; [apply Rabs_triang|]; lra). lra. }
    assert (Bdx : Rabs (fval d - fval x1) <= 333 / 100 * (Br * VV)).
    { unfold Rminus. eapply Rle_trans; [apply Rabs_triang|]. rewrite Rabs_Ropp. lra. }
    destruct (sf_sub_near d x1 Fd Fx1) as [Fz Vz]; [apply big_ok; simpl in *; lra|]. change (sf_sub d x1) with (sub d x1) in *.
    assert (uR : u64 * Rabs (fval d - fval x1) <= u64 * (333 / 100 * (Br * VV))) by (apply Rmult_le_compat_l; lra).
    assert (YP := Y_piece K ps (lin_c ps ss) (lin_c ps ts) f g Cf Cg Yf HYf).
    exists (sub d x1), (RInt (Y i0) (fval p0) (ps (S i0)) + Isum (S i0) (i1 - i0) - RInt (Y i1) (fval p1) (ps (S i1))).
    split; [reflexivity|]. split; [exact Fz|]. split; [|split].
    - replace (RInt (Y i0) (fval p0) (ps (S i0)) + Isum (S i0) (i1 - i0) - RInt (Y i1) (fval p1) (ps (S i1)))
        with (RInt (Y i0) (fval p0) (ps (S i0)) + Isum (S i0) (i1 - i0) + - RInt (Y i1) (fval p1) (ps (S i1))) by ring.
      apply (is_RInt_Chasles (V := R_NormedModule) _ _ (ps (S i1))).
      + apply (is_RInt_Chasles (V := R_NormedModule) _ _ (ps (S i0))); [|exact IR]. apply YP; try lra. lia.
      + apply (is_RInt_swap (V := R_NormedModule)). apply YP; try lra. lia.
    - set (R0 := RInt (Y i0) (fval p0) (ps (S i0))) in *. set (R1 := RInt (Y i1) (fval p1) (ps (S i1))) in *. set (R2 := Isum (S i0) (i1 - i0)) in *.
      set (z := sub d x1 : f64) in *. clearbody z R0 R1 R2.
      replace (fval z - (R0 + R2 - R1)) with ((fval z - (fval d - fval x1)) + (fval d - (fval x0 + sx)) + (fval x0 - R0) + (sx - R2) + - (fval x1 - R1)) by ring.
      eapply Rle_trans; [apply tri5|].
      rewrite Rabs_Ropp.
      assert (HW1 := HW i1 A1). assert (k0 : 0 <= kp).
      { unfold kap. assert (0 < / fval dp) by (apply Rinv_0_lt_compat; lra). assert (0 <= u64 * Br) by (apply Rmult_le_pos; lra).
        assert (0 <= u64 * Br * (18 + 13200 / fval dp)) by (apply Rmult_le_pos; [lra|unfold Rdiv; lra]). lra. }
      assert (Q1 : (wi i0 + sw (S i0) (i1 - i0)) * kp <= VV * kp) by (apply Rmult_le_compat_r; unfold VV; lra).
      assert (Q2 : wi i1 * kp <= VV * kp) by (apply Rmult_le_compat_r; unfold VV; lra).
      assert (Q3 : eT * (2 * (ps (S i1) - fval p1)) <= eT * (2 * W)) by (apply Rmult_le_compat_l; lra).
      assert (Q4 : INR (i1 - i0) * (21 / 10 * (u64 * (Br * VV))) <= INR K * (21 / 10 * (u64 * (Br * VV)))) by (apply Rmult_le_compat_r; lra).
      unfold mean_err. rewrite <- VVe.
      replace (VV * (2 * kp + u64 * Br * (21 / 10 * INR K + 4))) with (2 * (VV * kp) + (INR K * (21 / 10 * (u64 * (Br * VV))) + 4 * (u64 * (Br * VV)))) by ring.
      lra.
    - replace (fval (sub d x1)) with ((fval (sub d x1) - (fval d - fval x1)) + (fval d - fval x1)) by ring. eapply Rle_trans; [apply Rabs_triang|].
      assert (u64 * (Br * VV) <= / 1000000 * (Br * VV)) by (apply Rmult_le_compat_r; [lra|rewrite U; lra]). lra.
  Qed.

  Lemma mone : finite64 (lit (-1) 0 : f64) /\ fval (lit (-1) 0 : f64) = -1.
  Proof. match goal with |- finite64 ?x /\ _ => change x with (S754_finite true 4503599627370496 (-52)) end. split; [split; [reflexivity|split; [lia|right; lia]]|unfold fval; simpl; lra]. Qed.

  Lemma sum3 (x y z : f64) : finite64 x -> finite64 y -> finite64 z -> 0 <= fval x <= 10000 -> 0 <= fval y <= 10000 -> 0 <= fval z <= 10000 -> isnan (add (add x y) z : f64) = false.
  Proof.
    intros Fx Fy Fz Hx Hy Hz. pose proof u_is as U. pose proof eta_tiny as Et. rewrite U in Et. simpl in Et.
    destruct (sf_add_near x y Fx Fy) as [F1 V1]; [apply big_ok; rewrite Rabs_pos_eq by lra; simpl; lra|]. rewrite (Rabs_pos_eq (fval x + fval y)), U in V1 by lra.
    change (sf_add x y) with (add x y) in *. set (a := add x y : f64) in *. clearbody a. apply abs_le_of in V1.
    destruct (sf_add_near a z F1 Fz) as [F2 _]; [apply big_ok, Rabs_le; simpl; lra|]. exact (finite_isnan _ F2).
  Qed.

  Lemma last_above (p : f64) : finite64 p -> in_range K ps (fval p) -> exists l, get Pa (length Pa - 1) = Ok l /\ ltb l p = false.
  Proof.
    intros Fp Hp. assert (K2 := pf_two _ _ _ _ _ _ _ HPf).
    assert (L := lastP P' K ps (HP_pf _ _ _ _ _ _ _ HPf) K2). apply get_inv in L. rewrite <- (holds_length _ _ HP) in L.
    destruct (holds_get Pa P' _ _ HP L) as (x & Ex & Hx). exists x. split; [apply get_ok; exact Ex|].
    rewrite (holds_ltb x p _ (Fin (fval p)) Hx) by (split; [exact Fp|reflexivity]).
    exact (last_not_above P' K ps (HP_pf _ _ _ _ _ _ _ HPf) K2 (pf_deep _ _ _ _ _ _ _ HPf) (fval p) Hp).
  Qed.

  Lemma times_sgn (z g0 : f64) c : finite64 z -> Rabs (fval z) <= 10 ^ 25 -> finite64 g0 -> fval g0 = c -> c = 1 \/ c = -1 ->
    finite64 (mul z g0 : f64) /\ fval (mul z g0 : f64) = fval z * c.
  Proof.
    intros Fz Bz Fg Eg Hc.
    assert (R : rnd (fval z * c) = fval z * c).
    { destruct Hc as [-> | ->]; [rewrite Rmult_1_r; apply rnd_fval; exact Fz|]. replace (fval z * -1) with (- fval z) by ring.
      replace (- fval z) with (fval (SFopp z)) by (destruct z as [a|a| |a m e]; simpl; try destruct a; simpl; lra). apply rnd_fval. destruct z as [a|a| |a m e]; exact Fz. }
    destruct (mul_val z g0 Fz Fg) as [F V]; [rewrite Eg; apply rnd_small, big_ok; destruct Hc as [-> | ->]; rewrite ?Rmult_1_r; [|rewrite Rabs_mult, (Rabs_left (-1)) by lra]; simpl in *; lra|].
    rewrite Eg, R in V. split; [exact F|exact V].
  Qed.

  Lemma V_bounds : / 1000 <= V /\ 0 < Br * V /\ Br * V <= 1024 * 10 ^ 15.
  Proof.
    assert (Br0 : 0 < Br) by (pose proof (pow2_pos (-40)); lra). assert (Q := sw_pos (K - 1) 0). assert (K2 := pf_two _ _ _ _ _ _ _ HPf). assert (SWU := sw_ub (K - 1) 0 ltac:(lia)).
    assert (NK : INR (K - 1) <= INR K) by (apply le_INR; lia). assert (P40 : powerRZ 2 40 = 1099511627776) by (simpl; lra). assert (P10 : powerRZ 2 10 = 1024) by (simpl; lra).
    split; [lra|]. split; [apply Rmult_lt_0_compat; lra|]. apply Rmult_le_compat; try lra.
  Qed.

  Lemma int64 (p0 p1 : f64) : finite64 p0 -> finite64 p1 -> in_range K ps (fval p0) -> in_range K ps (fval p1) ->
    exists z I, _int_dlrpd_dz p1 p0 Pa Sppc Tppc dp geos = Ok z /\ finite64 z /\ is_RInt Yf (fval p0) (fval p1) I
      /\ Rabs (fval z - I) <= eT * (Rabs (fval p1 - fval p0) + 2 * W) + mean_err
      /\ Rabs (fval z) <= 34 / 10 * (Br * V).
  Proof.
    intros F0 F1 H0 H1. assert (K2 := pf_two _ _ _ _ _ _ _ HPf). destruct (levP 0 ltac:(lia)) as (E0 & FP0 & VP0).
    destruct (last_above p0 F0 H0) as (l & El & L0). destruct (last_above p1 F1 H1) as (l' & El' & L1). rewrite El in El'. injection El' as <-.
    destruct (Hw 0 ltac:(lia)) as (_ & _ & W0). destruct (Hw (K - 1) ltac:(lia)) as (_ & _ & W1). unfold in_range in H0, H1. destruct V_bounds as (VB1 & VB2 & VB3).
    unfold _int_dlrpd_dz. rewrite (get_ok _ _ _ E0). cbn [bind]. rewrite El. cbn [bind]. rewrite (sum3 p0 p1 (nth 0 Pa nan) F0 F1 FP0) by lra. rewrite L0, L1.
    assert (LT : forall x : f64, finite64 x -> ps 0%nat <= fval x -> ltb x (nth 0 Pa nan) = false).
    { intros x Fx Hx. change (ltb x (nth 0 Pa nan)) with (SFltb x (nth 0 Pa nan)). rewrite (ltb_val x _ Fx FP0). apply Rlt_bool_false. lra. }
    rewrite !LT by (trivial; lra). cbn [orb]. change (leb p0 p1) with (SFleb p0 p1). rewrite (leb_val p0 p1 F0 F1).
    destruct (Rle_bool_spec (fval p0) (fval p1)) as [Hle|Hlt].
    - destruct (core64 p0 p1 F0 F1 ltac:(lra) Hle ltac:(lra)) as (z & I & Ez & Fz & HI & Vz & Bz).
      destruct fl_one as [Fo Vo]. destruct (times_sgn z (lit 1 0) 1 Fz ltac:(simpl in *; lra) Fo Vo (or_introl eq_refl)) as [Fm Vm].
      exists (mul z (lit 1 0)), I. split.
      + unfold core in Ez. destruct (_int_x_k p0 _ dp Pa Sppc Tppc geos) as [a|]; [|discriminate]. cbn [bind] in *.
        destruct (for_range _ _ _ a) as [a'|]; [|discriminate]. cbn [bind] in *. destruct (_int_x_k p1 _ dp Pa Sppc Tppc geos) as [a2|]; [|discriminate].
        cbn [bind] in *. injection Ez as <-. reflexivity.
      + split; [exact Fm|]. split; [exact HI|]. rewrite Vm, Rmult_1_r. rewrite (Rabs_pos_eq (fval p1 - fval p0)) by lra. split; assumption.
    - destruct (core64 p1 p0 F1 F0 ltac:(lra) ltac:(lra) ltac:(lra)) as (z & I & Ez & Fz & HI & Vz & Bz).
      destruct mone as [Fo Vo]. destruct (times_sgn z (lit (-1) 0) (-1) Fz ltac:(simpl in *; lra) Fo Vo (or_intror eq_refl)) as [Fm Vm].
      exists (mul z (lit (-1) 0)), (- I). split.
      + unfold core in Ez. destruct (_int_x_k p1 _ dp Pa Sppc Tppc geos) as [a|]; [|discriminate]. cbn [bind] in *.
        destruct (for_range _ _ _ a) as [a'|]; [|discriminate]. cbn [bind] in *. destruct (_int_x_k p0 _ dp Pa Sppc Tppc geos) as [a2|]; [|discriminate].
        cbn [bind] in *. injection Ez as <-. reflexivity.
      + split; [exact Fm|]. split; [apply (is_RInt_swap (V := R_NormedModule)); exact HI|]. rewrite Vm.
        replace (fval z * -1 - - I) with (- (fval z - I)) by ring. replace (fval z * -1) with (- fval z) by ring. rewrite !Rabs_Ropp.
        rewrite (Rabs_left (fval p1 - fval p0)) by lra. replace (- (fval p1 - fval p0)) with (fval p0 - fval p1) by ring. split; assumption.
  Qed.

  (** the affine function of the integral *)
  Lemma affine64 (p0 p1 d0 b : f64) D0 d B : finite64 p0 -> finite64 p1 -> in_range K ps (fval p0) -> in_range K ps (fval p1) ->
    S_float.within d0 D0 d -> Rabs D0 <= B -> 0 <= d -> B + d <= 10 ^ 20 -> finite64 b -> Rabs (fval b) <= 10 ^ 6 ->
    exists v I, _veronis_affine p1 p0 d0 b Pa Sppc Tppc dp geos = Ok v /\ finite64 v /\ is_RInt Yf (fval p0) (fval p1) I
      /\ Rabs (fval v - (D0 + fval b * I)) <= Rabs (fval b) * (eT * (Rabs (fval p1 - fval p0) + 2 * W)) + (d + 3 * (u64 * (B + d) + eta64))
            + Rabs (fval b) * (V * (2 * kp + u64 * Br * (21 / 10 * INR K + 12))).
  Proof.
    intros F0 F1 H0 H1 [Fd Vd] BD D0' Bdd Fb Bb. destruct (int64 p0 p1 F0 F1 H0 H1) as (z & I & Ez & Fz & HI & Vz & Bz). destruct V_bounds as (VB1 & VB2 & VB3).
    pose proof u_is as U. assert (U0 := u64_pos). assert (E0 := eta64_pos). pose proof eta_tiny as Et. rewrite U in Et. simpl in Et.
    assert (Nb := Rabs_pos (fval b)).
    unfold _veronis_affine. rewrite Ez. cbn [bind].
    remember (Br * V) as Q eqn:EQ.
    assert (Bbz : Rabs (fval b * fval z) <= Rabs (fval b) * (34 / 10 * Q)) by (rewrite Rabs_mult; apply Rmult_le_compat_l; lra).
    assert (bQ : 0 <= Rabs (fval b) * Q) by (apply Rmult_le_pos; lra).
    assert (bQu : Rabs (fval b) * Q <= 10 ^ 6 * (1024 * 10 ^ 15)) by (apply Rmult_le_compat; lra).
    destruct (sf_mul_near b z Fb Fz) as [Fm Vm]; [apply big_ok; simpl in *; lra|]. change (sf_mul b z) with (mul b z) in *. set (m := mul b z : f64) in *. clearbody m.
    assert (um : u64 * Rabs (fval b * fval z) <= u64 * (Rabs (fval b) * (34 / 10 * Q))) by (apply Rmult_le_compat_l; lra).
    assert (ubQ : 0 <= u64 * (Rabs (fval b) * Q) <= / 1000000 * (Rabs (fval b) * Q)) by (split; [apply Rmult_le_pos; lra|apply Rmult_le_compat_r; [lra|rewrite U; lra]]).
    assert (Bm : Rabs (fval m) <= 35 / 10 * (Rabs (fval b) * Q) + 1 / 2).
    { replace (fval m) with ((fval m - fval b * fval z) + fval b * fval z) by ring. eapply Rle_trans; [apply Rabs_triang|]. lra. }
    assert (Bm' : Rabs (fval m) <= 35 / 10 * (Rabs (fval b) * Q) + eta64).
    { replace (fval m) with ((fval m - fval b * fval z) + fval b * fval z) by ring. eapply Rle_trans; [apply Rabs_triang|]. lra. }
    assert (Bd : Rabs (fval d0) <= B + d) by (replace (fval d0) with ((fval d0 - D0) + D0) by ring; eapply Rle_trans; [apply Rabs_triang|]; lra).
    assert (Bs : Rabs (fval d0 + fval m) <= B + d + (35 / 10 * (Rabs (fval b) * Q) + eta64)) by (eapply Rle_trans; [apply Rabs_triang|]; lra).
    assert (Bdd' := Rabs_pos (fval d0)).
    destruct (sf_add_near d0 m Fd Fm) as [Fv Vv]; [apply big_ok; simpl in *; lra|]. change (sf_add d0 m) with (add d0 m) in *.
    exists (add d0 m), I. split; [reflexivity|]. split; [exact Fv|]. split; [exact HI|]. set (v := add d0 m : f64) in *. clearbody v.
    assert (us : u64 * Rabs (fval d0 + fval m) <= u64 * (B + d + (35 / 10 * (Rabs (fval b) * Q) + eta64))) by (apply Rmult_le_compat_l; lra).
    assert (ue : u64 * eta64 <= eta64) by (rewrite <- (Rmult_1_l eta64) at 2; apply Rmult_le_compat_r; [lra|rewrite U; lra]).
    assert (uB : 0 <= u64 * (B + d)) by (apply Rmult_le_pos; lra).
    replace (fval v - (D0 + fval b * I)) with ((fval v - (fval d0 + fval m)) + (fval d0 - D0) + (fval m - fval b * fval z) + fval b * (fval z - I) + 0) by ring.
    eapply Rle_trans; [apply tri5|]. rewrite Rabs_R0, (Rabs_mult (fval b) (fval z - I)).
    assert (bE : Rabs (fval b) * Rabs (fval z - I) <= Rabs (fval b) * (eT * (Rabs (fval p1 - fval p0) + 2 * W) + mean_err)) by (apply Rmult_le_compat_l; lra).
    unfold mean_err in bE.
    replace (Rabs (fval b) * (V * (2 * kp + u64 * Br * (21 / 10 * INR K + 12)))) with (Rabs (fval b) * (V * (2 * kp + u64 * Br * (21 / 10 * INR K + 4))) + 8 * (u64 * (Rabs (fval b) * (Br * V)))) by ring.
    rewrite <- EQ. lra.
  Qed.
End Int64.
