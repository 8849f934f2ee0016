(** * The wetting searches in exact arithmetic: no exceptions, no endless loops *)
From Coq Require Import ZArith Reals List Lia Lra Bool.
From Verif Require Import Num XR Res Arr XRlemmas ArrLemmas M_ppinterp M_traj M_bfs S_graph S_wet S_interp S_fzero S_traj S_vertsolve
  P_ppinterp P_traj P_wet P_perim.
Import ListNotations.
Local Open Scope R_scope.

Lemma any_cast_len c : any_cast c -> let '(Sc, Tc, Pc) := c in (length Sc <= length Pc)%nat.
Proof.
  destruct c as [[Sc Tc] Pc]. intros [[H|(k & ps & ss & H)]|(k & K & ss & ts & ps & H & _)].
  - destruct H as [H _]. lia.
  - pose proof (blk_len _ _ _ _ _ _ H). lia.
  - pose proof (blk_len _ _ _ _ _ _ (cast_blk _ _ _ _ _ _ _ _ H)). lia.
Qed.

Section Exact.
  Variables (D : domain) (eos : xr -> xr -> xr -> res xr) (rho : R -> R -> R -> R).
  Hypothesis Heos : eos_on D eos rho.
  Variables (ppc_fn : list xr -> list xr -> res (list (list xr))).
  Variable rel : nat -> (nat -> R) -> (nat -> R) -> (R -> R) -> Prop.
  Hypothesis Hppc : interpolator ppc_fn rel.
  Variables (casts : list (list xr * list xr * list xr)) (tol : R) (p_ml : list xr).
  Variables (fuel N : nat) (indptr indices : list nat) (root : nat) (stp0 : list (xr * xr * xr)).
  Hypothesis Hcsr : csr N indptr indices.
  Hypothesis Hcasts : length casts = N.
  Hypothesis Hml : length p_ml = N.
  Hypothesis Hstp : length stp0 = N.
  Hypothesis Htol : 0 < tol.
  Hypothesis Hany : forall c, In c casts -> any_cast c /\ cast_in D c /\ enough_fuel fuel tol c.
  Hypothesis Hwet : forall n b, wet_at stp0 n -> nth_error stp0 n = Some b -> (bottle_in D) b.

  Lemma Hlen : forall Sc Tc Pc, In (Sc, Tc, Pc) casts -> (length Sc <= length Pc)%nat.
  Proof. intros Sc Tc Pc H. apply (any_cast_len (Sc, Tc, Pc)). apply Hany. assumption. Qed.

  Lemma ntp_to_total b n r : (bottle_in D) b -> ntp_to eos ppc_fn fuel casts (Fin tol) b n r ->
    exists r', r = Ok r' /\ (r' = (NaN, NaN, NaN) \/ (bottle_in D) r').
  Proof.
    intros (s & t & p & -> & Ds & Dt & Dp) (Sc & Tc & Pc & Hn & <-). apply nth_error_In in Hn.
    destruct (Hany _ Hn) as (H1 & Hin & H2).
    apply (ntp_any_cast D eos rho ppc_fn rel (Sc, Tc, Pc) s t p tol fuel Heos Hppc H1 Hin Htol H2 Ds Dt Dp).
  Qed.

  Lemma wet_closed : closed eos ppc_fn fuel casts (Fin tol) (bottle_in D) stp0.
  Proof.
    split.
    - intros n s t p Hn Hf. apply (Hwet n); auto. exists s, t, p. auto.
    - intros b n s t p Hb Hl Hf. destruct (ntp_to_total b n _ Hb Hl) as (r' & E & [->|H]).
      + injection E as -> -> ->. discriminate.
      + injection E as <-. assumption.
  Qed.

  Lemma bfs_wet_total junk lf : (root < N)%nat -> (N <= length junk)%nat -> (N < lf)%nat ->
    exists r, bfs_conncomp1_wet eos ppc_fn fuel casts (Fin tol) p_ml lf junk indptr indices root stp0 = Ok r.
  Proof.
    intros Hr Hj Hlf.
    pose proof (bfs_wet_correct eos ppc_fn fuel casts (Fin tol) p_ml N indptr indices root stp0 Hcsr Hcasts Hml Hstp
      Hlen eq_refl (bottle_in D) wet_closed junk Hr Hj lf Hlf) as H.
    destruct (bfs_conncomp1_wet _ _ _ _ _ _ _ _ _ _ _ _) as [r|e]; [eauto|].
    destruct H as (s & t & p & n & _ & Hb & Hl). destruct (ntp_to_total _ _ _ Hb Hl) as (r' & E & _). discriminate.
  Qed.

  Lemma cast_ppc_fin m Pm Sppc Tppc : cast_ppc ppc_fn casts m Pm Sppc Tppc ->
    exists a b gS gT, a <= b
      /\ (forall x, a <= x <= b -> ppval_1_nonan_two (Fin x) Pm Sppc Tppc 0 = Ok (Fin (gS x), Fin (gT x)))
      /\ (forall x, a <= x <= b -> ppval_1_two (Fin x) Pm Sppc Tppc 0 = Ok (Fin (gS x), Fin (gT x)))
      /\ get Pm 0 = Ok (Fin a) /\ get Pm (length Pm - 1) = Ok (Fin b)
      /\ (13 <= fuel)%nat /\ 2 * (b - a) / tol + 1 <= INR fuel
      /\ (forall x, a <= x <= b -> dS D (gS x) /\ dT D (gT x) /\ dP D x)
      /\ exists c, nth_error casts m = Some c /\ profile rel c gS gT a b.
  Proof.
    intros (Sc & Tc & Pc & k & K & Hn & Hv & HK & -> & ES & ET).
    destruct (Hany _ (nth_error_In _ _ Hn)) as (Ha & Hin & Hf1 & Hf2).
    destruct Ha as [Hs|(k' & K' & ss & ts & ps & HC & H2)].
    - destruct (short_cast_range _ _ Hs) as (k' & K' & E & HK' & _). rewrite Hv in E. injection E as <- <-. lia.
    - pose proof (cast_blk _ _ _ _ _ _ _ _ HC) as HB.
      assert (E : valid_range_1_two Sc Pc = Ok (k', K')).
      { rewrite valid_range_swap by (symmetry; apply (blk_len _ _ _ _ _ _ HB)). apply (block_valid_range _ _ _ _ _ _ HB). }
      rewrite Hv in E. injection E as <- <-.
      destruct (cast_interpolants ppc_fn rel Hppc Sc Tc Pc k K ss ts ps HC H2)
        as (Sppc' & Tppc' & gS & gT & E1 & E2 & R1 & R2 & C1 & C2 & W1 & W2 & Hval & G0 & G1).
      rewrite ES in E1. injection E1 as <-. rewrite ET in E2. injection E2 as <-.
      exists (ps k), (ps (K - 1)%nat), gS, gT. split; [apply (blk_mono_le _ _ _ _ _ _ HB); lia|].
      split; [intros x Hx; apply (Hval x Hx)|]. split; [intros x Hx; apply (Hval x Hx)|].
      split; [assumption|]. split; [assumption|]. split; [assumption|]. split; [apply (Hf2 k K ss ts ps HC)|].
      split; [apply (values_in D Sc Tc Pc k K ss ts ps HC H2 gS gT Hin W1 W2)|].
      exists (Sc, Tc, Pc). split; [assumption|]. split; [|assumption|assumption]. exists k, K, ss, ts, ps. cbn [fst snd]. auto 10.
  Qed.

  Lemma ppc_ok Sc Tc Pc k K m : nth_error casts m = Some (Sc, Tc, Pc) -> valid_range_1_two Sc Pc = Ok (k, K) ->
    (1 < K - k)%nat -> exists Sppc Tppc, ppc_fn (slice Pc k K) (slice Sc k K) = Ok Sppc
                                  /\ ppc_fn (slice Pc k K) (slice Tc k K) = Ok Tppc.
  Proof.
    intros Hn Hv HK. destruct (Hany _ (nth_error_In _ _ Hn)) as [Ha _].
    destruct Ha as [Hs|(k' & K' & ss & ts & ps & HC & H2)].
    - destruct (short_cast_range _ _ Hs) as (k' & K' & E & HK' & _). rewrite Hv in E. injection E as <- <-. lia.
    - pose proof (cast_blk _ _ _ _ _ _ _ _ HC) as HB.
      assert (E : valid_range_1_two Sc Pc = Ok (k', K')).
      { rewrite valid_range_swap by (symmetry; apply (blk_len _ _ _ _ _ _ HB)). apply (block_valid_range _ _ _ _ _ _ HB). }
      rewrite Hv in E. injection E as <- <-.
      destruct (cast_interpolants ppc_fn rel Hppc Sc Tc Pc k K ss ts ps HC H2)
        as (Sppc' & Tppc' & gS & gT & E1 & E2 & _). eauto.
  Qed.

  Lemma sum_between a b (qs : list xr) : (forall q, In q qs -> exists r, q = Fin r /\ a <= r <= b) ->
    forall acc m, INR m * a <= acc <= INR m * b ->
    exists s, fold_left add qs (Fin acc) = Fin s /\ INR (m + length qs) * a <= s <= INR (m + length qs) * b.
  Proof.
    induction qs as [|q qs IH]; intros Hq acc m Hacc.
    - exists acc. simpl. rewrite Nat.add_0_r. auto.
    - destruct (Hq q (or_introl eq_refl)) as (r & -> & Hr). cbn [fold_left length].
      destruct (IH ltac:(intros; apply Hq; right; assumption) (acc + r) (S m)) as (s & E & Hs).
      + rewrite S_INR. lra.
      + exists s. rewrite <- plus_n_Sm. split; assumption.
  Qed.

  Lemma link_fin s t p Pm Sppc Tppc m : dS D s -> dT D t -> dP D p -> cast_ppc ppc_fn casts m Pm Sppc Tppc ->
    exists r, ntp_bottle_to_cast_ppc eos fuel (Fin tol) (Fin s) (Fin t) (Fin p) Pm Sppc Tppc = Ok r.
  Proof.
    intros Ds Dt Dp Hc. destruct (cast_ppc_fin m Pm Sppc Tppc Hc) as (a & b & gS & gT & Hab & Hv & _ & G0 & G1 & F1 & F2 & Hd & c & Hcm & Hpf).
    destruct (link_ppc D eos rho Heos s t p tol Htol Ds Dt Dp Pm Sppc Tppc gS gT a b Hab Hv Hd G0 G1) as (r & Hr & _). eauto.
  Qed.

  Lemma mean_fin m n Pm Sppc Tppc p : cast_ppc ppc_fn casts m Pm Sppc Tppc ->
    mean_link eos fuel (Fin tol) (bottle_in D) n Pm Sppc Tppc p ->
    exists c gS gT a b r, nth_error casts m = Some c /\ profile rel c gS gT a b /\ a <= r <= b
      /\ p = Fin r /\ ppval_1_two p Pm Sppc Tppc 0 = Ok (Fin (gS r), Fin (gT r))
      /\ dS D (gS r) /\ dT D (gT r) /\ dP D r.
  Proof.
    intros Hc (qs & Hne & _ & Hq & Hp).
    destruct (cast_ppc_fin m Pm Sppc Tppc Hc) as (a & b & gS & gT & Hab & Hv & Hv2 & G0 & G1 & F1 & F2 & Hd & c & Hcm & Hpf).
    assert (Hqs : forall q, In q qs -> exists r, q = Fin r /\ a <= r <= b).
    { intros q Hin. destruct (Hq q Hin) as (Hf & sB & tB & pB & (s & t & p0 & Eb & Ds & Dt & Dp) & _ & El). injection Eb as -> -> ->.
      destruct (link_ppc D eos rho Heos s t p0 tol Htol Ds Dt Dp Pm Sppc Tppc gS gT a b Hab Hv Hd G0 G1) as (r & Hr & Hcase).
      rewrite (Hr fuel F1 F2) in El. injection El as ->.
      destruct Hcase as [[-> _]|(x & -> & Hx & _)]; [discriminate|]. exists x. auto. }
    destruct (sum_between a b qs Hqs 0 0) as (s & Es & Hs); [simpl; lra|].
    replace (lit 0 0 : xr) with (Fin 0) in Hp by (cbn; f_equal; ring). rewrite Es in Hp.
    set (k := length qs) in *. assert (Hn : 0 < INR k).
    { apply lt_0_INR. unfold k. destruct qs; [congruence|simpl; lia]. }
    assert (Eof : (of_nat k : xr) = Fin (INR k)).
    { unfold of_nat. cbn. f_equal. rewrite <- INR_IZR_INZ. ring. }
    rewrite Eof, sdiv_fin in Hp by lra. injection Hp as <-. simpl in Hs.
    assert (Hrange : a <= s / INR k <= b).
    { split.
      - apply (Rmult_le_reg_r (INR k)); auto. unfold Rdiv. rewrite Rmult_assoc, Rinv_l by lra. lra.
      - apply (Rmult_le_reg_r (INR k)); auto. unfold Rdiv. rewrite Rmult_assoc, Rinv_l by lra. lra. }
    exists c, gS, gT, a, b, (s / INR k). split; [assumption|]. split; [assumption|]. split; [assumption|].
    split; [reflexivity|]. split; [apply Hv2; assumption|apply Hd; assumption].
  Qed.

  Lemma perim_closed : closed_p eos ppc_fn fuel casts (Fin tol) (listed indptr indices) (bottle_in D) stp0.
  Proof.
    split.
    - intros n s t p Hn Hf. apply (Hwet n); auto. exists s, t, p. auto.
    - intros m Pm Sppc Tppc s t p Hc Hm Ev _. destruct (mean_fin m _ Pm Sppc Tppc p Hc Hm) as (c & gS & gT & a & b & r & _ & _ & _ & -> & E & D1 & D2 & D3).
      rewrite Ev in E. injection E as -> ->. exists (gS r), (gT r), r. auto.
  Qed.

  Lemma bfs_wet_perim_total junk n_rep lf : (root < N)%nat -> (N <= length junk)%nat -> (N < lf)%nat ->
    exists r, bfs_conncomp1_wet_perim eos ppc_fn fuel casts (Fin tol) p_ml lf junk indptr indices root n_rep stp0 = Ok r.
  Proof.
    intros Hr Hj Hlf.
    pose proof (bfs_wet_perim_correct eos ppc_fn fuel casts (Fin tol) p_ml N indptr indices root stp0 Hcsr Hcasts Hml Hstp
      Hlen eq_refl (bottle_in D) perim_closed junk n_rep Hr Hj lf Hlf) as H. cbv zeta in H.
    destruct (bfs_conncomp1_wet_perim _ _ _ _ _ _ _ _ _ _ _ _ _) as [r|e]; [eauto|].
    cbn [okor] in H. exfalso. destruct H as [(Sc & Tc & Pc & k & K & m & H1 & H2 & H3 & H4)|(m & Pm & Sppc & Tppc & Hc & [H|[H|H]])].
    - destruct (ppc_ok _ _ _ _ _ _ H1 H2 H3) as (Sppc & Tppc & E1 & E2). destruct H4; congruence.
    - destruct H as (s & t & p & _ & (s' & t' & p' & Eb & Ds & Dt & Dp) & El). injection Eb as -> -> ->.
      destruct (link_fin s' t' p' Pm Sppc Tppc m Ds Dt Dp Hc) as (r & E). congruence.
    - destruct H as (x & n & _ & E). unfold sdiv in E.
      replace (eqb (of_nat (S n) : xr) zero) with false in E; [discriminate|].
      unfold of_nat, zero. cbn [lit xrNum eqb]. symmetry. cbn. apply Reqb_false.
      assert (IZR (Z.of_nat (S n)) > 0) by (apply IZR_lt; lia). cbn in *. lra.
    - destruct H as (p & Hm & E). destruct (mean_fin m _ Pm Sppc Tppc p Hc Hm) as (c & gS & gT & a & b & r & _ & _ & _ & _ & E' & _). congruence.
  Qed.
End Exact.
