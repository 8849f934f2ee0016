(** * The Veronis density in binary64 increases where its errors are smaller than its change *)
From Coq Require Import String ZArith Reals Lra Lia List SpecFloat.
From Coquelicot Require Import Coquelicot.
From Verif Require Import Num XR SF Res Arr M_eostools M_label S_eos S_float S_domain S_named S_traj S_vert64 S_surfaces S_entry64 S_label S_omega64 S_label64
  P_label3 P_label64d P_label64e.
Import ListNotations.
Local Open Scope R_scope.

Lemma veronis64_increasing : forall name rho s0 d B c r smin C grav rho_c zp pm vs vt,
  named_eos name rho -> limits64 name s0 (dec 1 (-13)) d B -> label64 name c r -> bend64 name smin C -> coordinate64 grav rho_c zp pm ->
  partials (seas zp) (at_depth zp rho) vs vt ->
  forall S T P S' T' P' K ss ts ps W L, cast64 (sea s0 pm) S T P S' T' P' K ss ts ps W ->
  (forall i, (i < K)%nat -> smin <= ss i) -> steep K ss ts ps L ->
  forall gS gT, linear_fun K ps ss gS -> linear_fun K ps ts gT ->
  forall junk p0 q p1 p_ref b dp, finite64 p0 -> finite64 q -> finite64 p1 -> finite64 p_ref -> finite64 b -> finite64 dp ->
  in_range K ps (fval p0) -> in_range K ps (fval q) -> in_range K ps (fval p1) -> fval q < fval p1 ->
  0 <= fval p_ref <= pm -> Rabs (fval b) <= 10 ^ 6 -> / 1000 <= fval dp <= 5000 ->
  forall m, (forall i x, (i + 1 < K)%nat -> ps i < x < ps (i + 1)%nat -> fval q < x < fval p1 ->
    m <= fval b * (vs (gS x) (gT x) x * Derive gS x + vt (gS x) (gT x) x * Derive gT x)) ->
  Rabs (fval b) * (C * L ^ 3 * (fval dp * (1 + powerRZ 2 (-20))) ^ 2 / 12 * (Rabs (fval q - fval p0) + Rabs (fval p1 - fval p0) + 4 * W)) + 2 * d
    + 2 * (Rabs (fval b) * ((variation K ss ts + / 100) * (c + (INR K + 30 + 15000 / fval dp) * r))) < m * (fval p1 - fval q) ->
  exists u v, veronis junk q S T P (Some p0) p_ref b dp "linear" (AStr name) grav rho_c = Ok u
    /\ veronis junk p1 S T P (Some p0) p_ref b dp "linear" (AStr name) grav rho_c = Ok v
    /\ finite64 u /\ finite64 v /\ fval u < fval v.
Proof.
  intros name rho s0 d B c r smin C grav rho_c zp pm vs vt N1 N2 N3 N4 N5 N6 S T P S' T' P' K ss ts ps W L Hc Hmin Hst gS gT HgS HgT
    junk p0 q p1 p_ref b dp F0 Fq F1 Fr Fb Fdp H0 Hq H1 Hlt Hr Hb Hdp m Hm Hsm.
  destruct (veronis64_explicit name rho s0 d B c r smin C grav rho_c zp pm vs vt N1 N2 N3 N4 N5 N6 S T P S' T' P' K ss ts ps W L Hc Hmin Hst gS gT HgS HgT
    junk p0 q p_ref b dp F0 Fq Fr Fb Fdp H0 Hq Hr Hb Hdp) as (u & I1 & Eu & Fu & HI1 & Hu).
  destruct (veronis64_explicit name rho s0 d B c r smin C grav rho_c zp pm vs vt N1 N2 N3 N4 N5 N6 S T P S' T' P' K ss ts ps W L Hc Hmin Hst gS gT HgS HgT
    junk p0 p1 p_ref b dp F0 F1 Fr Fb Fdp H0 H1 Hr Hb Hdp) as (v & I2 & Ev & Fv & HI2 & Hv).
  exists u, v. split; [exact Eu|]. split; [exact Ev|]. split; [exact Fu|]. split; [exact Fv|].
  pose proof (c64_profile _ _ _ _ _ _ _ _ _ _ _ _ Hc) as HP.
  set (y := fun x => vs (gS x) (gT x) x * Derive gS x + vt (gS x) (gT x) x * Derive gT x) in *.
  pose proof (is_RInt_Chasles _ _ _ _ _ _ (is_RInt_swap _ _ _ _ HI1) HI2) as HJ.
  pose proof (is_RInt_scal _ _ _ (fval b) _ HJ) as HB.
  pose proof (int_at_least K ps (fun x => scal (fval b) (y x)) m (fun i H => Hinc_pf _ _ _ _ _ _ _ HP i H) (K - 1) ltac:(pose proof (pf_two _ _ _ _ _ _ _ HP); lia)
    (fval q) (fval p1) _ (proj1 Hq) ltac:(lra) (proj2 H1) ltac:(intros i x Hik Hx Hqx; apply (Hm i x); [lia|rewrite Nat.add_1_r; exact Hx|exact Hqx]) HB) as HL.
  assert (HL' : m * (fval p1 - fval q) <= fval b * (- I1 + I2)) by exact HL. clear HL. rename HL' into HL.
  apply Rabs_le_between in Hu, Hv.
  set (Q := C * L ^ 3 * (fval dp * (1 + powerRZ 2 (-20))) ^ 2 / 12) in *. set (R1 := Rabs (fval b) * ((variation K ss ts + / 100) * _)) in *.
  set (A := at_depth zp rho _ _ _) in *. set (bb := Rabs (fval b)) in *. set (a1 := Rabs (fval q - fval p0)) in *. set (a2 := Rabs (fval p1 - fval p0)) in *.
  replace (bb * (Q * (a1 + a2 + 4 * W))) with (bb * (Q * (a1 + 2 * W)) + bb * (Q * (a2 + 2 * W))) in Hsm by ring.
  replace (fval b * (- I1 + I2)) with (fval b * I2 - fval b * I1) in HL by ring. lra.
Qed.
