(** * The mixed layer in binary64: columns *)
From Coq Require Import String ZArith Bool Reals Lra Lia List SpecFloat.
From Flocq Require Import Core.Raux.
From Verif Require Import Num XR SF Res Arr ArrLemmas Nd NdLemmas XRlemmas M_numpy M_lib M_ppinterp M_make_pp M_eos_base M_eostools M_mixed_layer
  S_eos S_float S_interp S_domain S_named S_traj S_vertsolve S_vert64 S_entry64 S_omega64 S_mixed_layer S_ml64
  P_float P_fl P_holds P_linear64 P_ppinterp P_pval P_interp P_interp2 P_coeffs P_vert64 P_surf64 P_ntpnan64 P_lost64 P_fly64 P_mixed_layer P_ml64 P_traj P_traj64 P_numpy.
Import ListNotations.
Local Open Scope R_scope.

Definition val (x : f64) : xr := if sf_isfinite x then Fin (fval x) else NaN.
Lemma val_holds (x : f64) : finite64 x \/ x = NAN -> S_vert64.holds x (val x).
Proof.
  intros [F | ->]; [|reflexivity]. unfold val. rewrite (finite_isfinite x F). split; [exact F|reflexivity].
Qed.
Lemma nth_same {A} (l : list A) i j x y : nth_error l i = Some x -> nth_error l j = Some y -> i = j -> x = y.
Proof. intros H1 H2 ->. congruence. Qed.

Section Array.
  Variables (f : f64 -> f64 -> f64 -> res f64) (ref : f64) (D : domain) (rho : R -> R -> R) (η : R).
  Hypothesis HQ : potdens64 f ref D rho η.
  Variables (S T P : list f64) (S' T' P' : list xr).
  Hypotheses (HS : holds_all S S') (HT : holds_all T T') (HP : holds_all P P').
  Hypotheses (LS : length S' = length P') (LT : length T' = length P').
  Hypothesis HL : levels_in D S' T'.
  Variables (b : Z) (B : nat).
  Hypothesis Hb : py_index (length S) b B.

  Lemma level_cases i : (i < length P')%nat ->
    exists s t, nth_error S i = Some s /\ nth_error T i = Some t
      /\ ((nth_error S' i = Some NaN /\ s = NAN) \/ exists a c, nth_error S' i = Some (Fin a) /\ nth_error T' i = Some (Fin c)
             /\ S_vert64.holds s (Fin a) /\ S_vert64.holds t (Fin c) /\ dS D a /\ dT D c).
  Proof.
    intros Hi. destruct (nth_error S' i) as [s'|] eqn:Es; [|apply nth_error_None in Es; lia]. destruct (nth_error T' i) as [t'|] eqn:Et; [|apply nth_error_None in Et; lia].
    destruct (holds_get S S' i s' HS Es) as (s & Gs & Hs). destruct (holds_get T T' i t' HT Et) as (t & Gt & Ht). exists s, t. split; [exact Gs|]. split; [exact Gt|].
    destruct (HL i s' t' Es Et) as [->|(a & c & -> & -> & Ha & Hc)].
    - left. split; [reflexivity|exact Hs].
    - right. exists a, c. split; [reflexivity|]. split; [reflexivity|]. split; [exact Hs|]. split; [exact Ht|]. split; [exact Ha|exact Hc].
  Qed.
  Lemma lens64 : length S = length P /\ length T = length P /\ length P = length P'.
  Proof. rewrite (holds_length _ _ HS), (holds_length _ _ HT), (holds_length _ _ HP). lia. Qed.

  Lemma np_one (h : f64 -> f64 -> f64) (x : list f64) (y : f64) : x <> [] -> np_bin h x [y] = Ok (map (fun u => h u y) x).
  Proof. intros Hx. unfold np_bin. destruct x as [|u [|w x]]; [congruence|reflexivity|reflexivity]. Qed.

  Lemma column64_total : exists d, eos_column f S T ref = Ok d /\ length d = length P'
    /\ forall i s t, nth_error S i = Some s -> nth_error T i = Some t -> exists v, f s t ref = Ok v /\ nth_error d i = Some v.
  Proof.
    destruct lens64 as (L1 & L2 & L3). destruct (pq_water _ _ _ _ _ HQ) as (e & dd & BB & _ & Hw & _).
    destruct (mapM_ok (fun st => f (fst st) (snd st) ref) (combine S T)) as (d & Ed & Ld & _).
    { intros [s t] Hin. apply In_nth_error in Hin. destruct Hin as [i Hi].
      rewrite nth_error_combine in Hi. destruct (nth_error S i) eqn:E1, (nth_error T i) eqn:E2; try discriminate. injection Hi as -> ->.
      assert (Hlt := nth_error_lt _ _ _ E1). destruct (level_cases i ltac:(lia)) as (s1 & t1 & G1 & G2 & H). rewrite E1 in G1. rewrite E2 in G2.
      assert (s1 = s) as -> by congruence. assert (t1 = t) as -> by congruence. cbn [fst snd]. destruct H as [[_ ->]|(a & c & _ & _ & Hs & Ht & Ha & Hc)].
      - exists NAN. apply (pq_nan _ _ _ _ _ HQ).
      - destruct (Hw s t a c Hs Ht Ha Hc) as (y & Ey & _). exists y. exact Ey. }
    exists d. split; [exact Ed|]. split; [rewrite (length_mapM _ _ _ Ed), combine_length; lia|].
    intros i s t E1 E2. destruct (nth_error_mapM _ _ _ i (s, t) Ed) as (v & Ev & Hv); [rewrite nth_error_combine, E1, E2; reflexivity|]. exists v. split; [exact Ev|exact Hv].
  Qed.

  Lemma bottle_slice s t : nth_error S B = Some s -> nth_error T B = Some t ->
    eos_column f (py_slice S b (b + 1)) (py_slice T b (b + 1)) ref = let! y := f s t ref in Ok [y].
  Proof.
    intros Es Et. destruct lens64 as (L1 & L2 & L3). rewrite (py_slice_one S b B s Hb Es). rewrite (py_slice_one T b B t); [|rewrite L2, <- L1; exact Hb|exact Et].
    reflexivity.
  Qed.

  Lemma array64 aB cB : nth_error S' B = Some (Fin aB) -> nth_error T' B = Some (Fin cB) -> exists DD,
    (forall g x, mixed_layer_1 f g x ref b S T P = g x DD P 0%nat)
    /\ length DD = length P'
    /\ (forall i, nth_error S' i = Some NaN -> nth_error DD i = Some NAN)
    /\ (forall i a c, nth_error S' i = Some (Fin a) -> nth_error T' i = Some (Fin c) ->
          exists z, nth_error DD i = Some z /\ S_float.within z (rho a c - rho aB cB) η /\ grid (fval z) /\ Rabs (fval z) <= 5000 /\ (i = B -> fval z = 0)).
  Proof.
    intros EaB EcB. destruct lens64 as (L1 & L2 & L3). destruct (pq_water _ _ _ _ _ HQ) as (e & dd & BB & Ee & Hw & Hd0 & HBB & Hη).
    destruct column64_total as (d & Ed & Ld & Hd).
    assert (LB : (B < length P')%nat) by (destruct Hb as [H _]; lia).
    destruct (level_cases B LB) as (sB & tB & GsB & GtB & [[C _]|(a1 & c1 & E1 & E2 & HsB & HtB & HaB & HcB)]); [congruence|].
    assert (a1 = aB) as -> by congruence. assert (c1 = cB) as -> by congruence.
    destruct (Hw sB tB aB cB HsB HtB HaB HcB) as (yB & EyB & RB & WB & BB1).
    assert (EdB := bottle_slice sB tB GsB GtB). rewrite EyB in EdB. cbn [bind] in EdB.
    assert (Nd : d <> []) by (intros ->; cbn in Ld; lia).
    exists (map (fun y => sub (dens e y) (dens e yB)) d). split; [|split; [rewrite map_length; exact Ld|split]].
    - intros g x. unfold mixed_layer_1. rewrite Ee. cbn [bind]. rewrite Ed, EdB. cbn [bind]. unfold dens. destruct (ltb (lit 1 0) e).
      + rewrite np_one by exact Nd. cbn [bind]. rewrite map_length, Ld, L3, Nat.eqb_refl. reflexivity.
      + cbn [map]. rewrite np_one by (destruct d; [congruence|discriminate]). cbn [bind]. rewrite !map_length, Ld, L3, Nat.eqb_refl.
        rewrite map_map. reflexivity.
    - intros i Hi. assert (Hlt := nth_error_lt _ _ _ Hi). destruct (level_cases i ltac:(lia)) as (s & t & Gs & Gt & [[_ ->]|(a & c & C & _)]); [|congruence].
      destruct (Hd i _ _ Gs Gt) as (v & Ev & Hv). rewrite (pq_nan _ _ _ _ _ HQ) in Ev. assert (v = NAN) as -> by congruence.
      rewrite nth_error_map, Hv. cbn [option_map]. unfold dens. destruct (ltb (lit 1 0) e); [reflexivity|]. rewrite div_nan_r. reflexivity.
    - intros i a c Ea Ec. assert (Hlt := nth_error_lt _ _ _ Ea).
      destruct (level_cases i ltac:(lia)) as (s & t & Gs & Gt & [[C _]|(a1 & c1 & E1' & E2' & Hs & Ht & Ha & Hc)]); [congruence|].
      assert (a1 = a) as -> by congruence. assert (c1 = c) as -> by congruence.
      destruct (Hw s t a c Hs Ht Ha Hc) as (y & Ey & Ry & Wy & By). destruct (Hd i _ _ Gs Gt) as (v & Ev & Hv). rewrite Ey in Ev. assert (v = y) as -> by congruence.
      exists (sub (dens e y) (dens e yB)). split; [rewrite nth_error_map, Hv; reflexivity|].
      split; [eapply within_mono; [|exact (sub_within _ _ _ _ _ _ _ _ Wy WB By BB1 HBB)]; exact Hη|].
      destruct (sub_grid _ _ (proj1 Wy) (proj1 WB) Ry RB) as (_ & V & G). split; [exact G|]. split.
      { rewrite V. pose proof (rnd_err (fval (dens e y) - fval (dens e yB))) as Hr. pose proof eta_1e30. apply abs_le_of in Hr.
        assert (Ha3 : Rabs (fval (dens e y) - fval (dens e yB)) <= 4000) by (apply Rabs_le; lra).
        assert (U : u64 = / 9007199254740992) by reflexivity. rewrite U in Hr. pose proof (Rabs_le_inv _ _ Ha3). apply Rabs_le. lra. }
      intros ->. assert (y = yB) as ->. { assert (s = sB) by congruence. assert (t = tB) by congruence. subst. congruence. }
      rewrite V. replace (fval (dens e yB) - fval (dens e yB)) with 0 by ring. apply Generic_fmt.round_0. apply BinarySingleNaN.valid_rnd_round_mode.
  Qed.

  Lemma no_bottle c (x : f64) : nth_error S' B = Some NaN -> mixed_layer_1 f (ppinterp_1 c) x ref b S T P = Ok nan.
  Proof.
    intros EB. destruct lens64 as (L1 & L2 & L3). destruct (pq_water _ _ _ _ _ HQ) as (e & dd & BB & Ee & _).
    destruct column64_total as (d & Ed & Ld & Hd).
    assert (LB : (B < length P')%nat) by (destruct Hb as [H _]; lia).
    destruct (level_cases B LB) as (sB & tB & GsB & GtB & [[_ ->]|(a1 & c1 & E1 & _)]); [|congruence].
    assert (EdB := bottle_slice _ tB GsB GtB). rewrite (pq_nan _ _ _ _ _ HQ) in EdB. cbn [bind] in EdB.
    assert (Nd : d <> []) by (intros ->; cbn in Ld; lia).
    unfold mixed_layer_1. rewrite Ee. cbn [bind]. rewrite Ed, EdB. cbn [bind].
    assert (HN : forall DD, length DD = length P' -> (forall y, In y DD -> y = NAN) -> ppinterp_1 c x DD P 0 = Ok nan).
    { intros DD L HDD. unfold ppinterp_1, locate.
      assert (Hall : holds_all DD (map (fun _ => NaN) DD)).
      { clear L. induction DD as [|z l IH]; constructor; [rewrite (HDD z (or_introl eq_refl)); reflexivity|]. apply IH. intros y Hy. apply HDD. right. exact Hy. }
      rewrite (holds_valid_range_two _ _ _ _ Hall HP). rewrite no_data_range.
      - cbn [bind]. rewrite (proj2 (Nat.leb_le _ _)) by lia. reflexivity.
      - split; [rewrite map_length; lia|]. intros i Hi. left. rewrite nth_error_map. rewrite map_length in Hi.
        destruct (nth_error DD i) eqn:E; [reflexivity|apply nth_error_None in E; lia]. }
    assert (Hm : forall (l : list f64) y, In y (map (fun u => sub u NAN) l) -> y = NAN).
    { intros l y Hy. apply in_map_iff in Hy. destruct Hy as (u & <- & _). apply sub_nan_r. }
    destruct (ltb (lit 1 0) e).
    - rewrite np_one by exact Nd. cbn [bind]. rewrite map_length, Ld, L3, Nat.eqb_refl. apply HN; [rewrite map_length; exact Ld|apply Hm].
    - cbn [map]. rewrite div_nan_r. rewrite np_one by (destruct d; [congruence|discriminate]). cbn [bind]. rewrite !map_length, Ld, L3, Nat.eqb_refl.
      apply HN; [rewrite !map_length; exact Ld|apply Hm].
  Qed.
End Array.

Section Layers.
  Variables (f : f64 -> f64 -> f64 -> res f64) (ref : f64) (D : domain) (rho : R -> R -> R) (η : R).
  Hypothesis HQ : potdens64 f ref D rho η.
  Hypothesis Hη : dec 6 (-12) <= η.
  Hypothesis HDP : forall y, dP D y -> Rabs y <= 10000.
  Variables (S T P : list f64) (c' : S_vertsolve.column).
  Hypothesis Hh : holds_column (S, T, P) c'.
  Variables (b : Z) (B : nat).
  Hypothesis Hb : py_index (length S) b B.
  Variables (k K : nat) (ys ps : nat -> R).
  Hypothesis HL : layers D rho B c' k K ys ps.

  (** the abscissae *)
  Lemma abscissae : exists DD X,
    (forall g x, mixed_layer_1 f g x ref b S T P = g x DD P 0%nat)
    /\ length DD = length (snd c') /\ holds_all DD (map val DD)
    /\ valid_range_1_two DD P = Ok (k, K)
    /\ (forall i, (k <= i < K)%nat -> exists z : f64, nth_error DD i = Some z /\ finite64 z /\ fval z = X i)
    /\ (forall i, (k <= i < K)%nat -> Rabs (X i - ys i) <= η /\ grid (X i) /\ Rabs (X i) <= 5000)
    /\ ((forall i, (k <= i)%nat -> (Datatypes.S i < K)%nat -> X i < X (Datatypes.S i)) -> block (map val DD) (snd c') k K X ps).
  Proof.
    destruct HL as [Hlev HB (ss & ts & HC & Eys) Hps]. destruct c' as [[S' T'] P']. destruct Hh as (HS & HT & HP). cbn [fst snd] in *.
    pose proof (cast_blk _ _ _ _ _ _ _ _ HC) as BK. pose proof (blk_len _ _ _ _ _ _ BK) as L1. pose proof (cast_lenT _ _ _ _ _ _ _ _ HC) as L2.
    assert (LS : length S' = length P') by lia. assert (LT : length T' = length P') by lia.
    assert (GS : forall i, (k <= i < K)%nat -> nth_error S' i = Some (Fin (ss i))) by (intros; apply (blk_Y _ _ _ _ _ _ BK); assumption).
    assert (GT : forall i, (k <= i < K)%nat -> nth_error T' i = Some (Fin (ts i))) by (intros; apply (cast_T _ _ _ _ _ _ _ _ HC); assumption).
    destruct (array64 f ref D rho η HQ S T P S' T' P' HS HT HP LS LT Hlev b B Hb (ss B) (ts B) (GS B HB) (GT B HB)) as (DD & E & LD & Hnan & Hval).
    assert (HDD : holds_all DD (map val DD)).
    { assert (A : forall i z, nth_error DD i = Some z -> finite64 z \/ z = NAN).
      { intros i z Hz. assert (Hlt := nth_error_lt _ _ _ Hz). destruct (nth_error S' i) as [s|] eqn:Es; [|apply nth_error_None in Es; lia].
        destruct (nth_error T' i) as [t|] eqn:Et; [|apply nth_error_None in Et; lia]. destruct (Hlev i s t Es Et) as [->|(a & c & -> & -> & _)].
        - right. specialize (Hnan i Es). congruence.
        - left. destruct (Hval i a c Es Et) as (z' & Ez & [Fz _] & _). assert (z = z') as -> by congruence. exact Fz. }
      clear - A. induction DD as [|z l IH]; constructor; [apply val_holds; exact (A 0%nat z eq_refl)|]. apply IH. intros i y Hy. exact (A (Datatypes.S i) y Hy). }
    set (X := fun i => fval (nth i DD (nan : f64))).
    assert (HX : forall i, (k <= i < K)%nat -> exists z : f64, nth_error DD i = Some z /\ finite64 z /\ fval z = X i
       /\ Rabs (X i - ys i) <= η /\ grid (X i) /\ Rabs (X i) <= 5000 /\ (i = B -> X i = 0)).
    { intros i Hi. destruct (Hval i _ _ (GS i Hi) (GT i Hi)) as (z & Ez & [Fz Wz] & Gz & Bz & Zz). exists z.
      assert (Ex : fval z = X i) by (unfold X; rewrite (nth_error_nth _ _ _ Ez); reflexivity). rewrite Ex in *.
      split; [exact Ez|]. split; [exact Fz|]. split; [reflexivity|]. split; [rewrite Eys; exact Wz|]. split; [exact Gz|]. split; [exact Bz|exact Zz]. }
    assert (XB : X B = 0) by (destruct (HX B HB) as (_ & _ & _ & _ & _ & _ & _ & Z); exact (Z eq_refl)).
    assert (XE : forall i, excess X B i = X i) by (intros i; unfold excess; rewrite XB; ring).
    destruct (excess_range S' T' P' k K ss ts ps X HC B HB (map val DD)) as [HR HBl].
    { rewrite map_length. exact LD. }
    { intros i Hi. destruct (HX i Hi) as (z & Ez & Fz & Vz & _). rewrite nth_error_map, Ez, XE, <- Vz. cbn [option_map]. unfold val.
      rewrite (finite_isfinite z Fz). reflexivity. }
    { intros i Hi. rewrite nth_error_map, (Hnan i Hi). reflexivity. }
    exists DD, X. split; [exact E|]. split; [exact LD|]. split; [exact HDD|]. split; [|split; [|split]].
    - rewrite (holds_valid_range_two _ _ _ _ HDD HP). exact HR.
    - intros i Hi. destruct (HX i Hi) as (z & Ez & Fz & Vz & _). exists z. split; [exact Ez|]. split; [exact Fz|exact Vz].
    - intros i Hi. destruct (HX i Hi) as (z & _ & _ & _ & H1 & H2 & H3 & _). split; [exact H1|]. split; [exact H2|exact H3].
    - intros Hinc. assert (HB' := HBl). specialize (HB' ltac:(intros i H1 H2; rewrite !XE; apply Hinc; assumption)).
      destruct HB' as [B1 B2 B3 B4 B5 B6 B7 B8]. constructor; try assumption.
      intros i Hi. rewrite (B4 i Hi), XE. reflexivity.
  Qed.

  (** one level *)
  Lemma ml_single c (x : f64) : (K = k + 1)%nat -> mixed_layer_1 f (ppinterp_1 c) x ref b S T P = Ok nan.
  Proof.
    intros EK. destruct abscissae as (DD & X & E & _ & _ & Hr & _). rewrite E. unfold ppinterp_1, locate. rewrite Hr. cbn [bind].
    rewrite (proj2 (Nat.leb_le _ _)) by lia. reflexivity.
  Qed.

  (** outside *)
  Lemma ml_outside64 c (x : f64) : float64 x -> (finite64 x -> fval x < ys k - η \/ ys (K - 1)%nat + η < fval x) ->
    mixed_layer_1 f (ppinterp_1 c) x ref b S T P = Ok nan.
  Proof.
    intros Hx Ho. destruct abscissae as (DD & X & E & _ & _ & Hr & Hz & Hn & _). rewrite E. unfold ppinterp_1, locate. rewrite Hr. cbn [bind].
    assert (HkK : (k <= B < K)%nat) by apply (la_bottle _ _ _ _ _ _ _ _ HL).
    destruct (Nat.leb_spec (K - 1) k) as [|H1]; [reflexivity|]. cbn [orb].
    destruct (Hz k ltac:(lia)) as (A & GA & FA & VA). destruct (Hz (K - 1)%nat ltac:(lia)) as (C & GC & FC & VC).
    destruct (Hn k ltac:(lia)) as [NA _]. destruct (Hn (K - 1)%nat ltac:(lia)) as [NC _]. apply abs_le_of in NA. apply abs_le_of in NC.
    destruct Hx as [Fx|Hx].
    - change (isnan x) with (sf_isnan x). rewrite (finite_isnan _ Fx), (get_ok _ _ _ GA), (get_ok _ _ _ GC). cbn [bind].
      change (ltb x A) with (SFltb x A). change (ltb C x) with (SFltb C x). rewrite !ltb_val by assumption. rewrite VA, VC. destruct (Ho Fx) as [H|H].
      + rewrite Rlt_bool_true by lra. reflexivity.
      + destruct (Rlt_bool (fval x) (X k)); [reflexivity|]. rewrite Rlt_bool_true by lra. reflexivity.
    - rewrite (get_ok _ _ _ GA), (get_ok _ _ _ GC). cbn [bind]. destruct x as [s|s| |s m e]; try discriminate Hx; [|reflexivity].
      change (isnan (S754_infinity s : f64)) with false. destruct s.
      + rewrite (proj1 (ltb_inf A FA)). reflexivity.
      + destruct (ltb (S754_infinity false : f64) A); [reflexivity|]. rewrite (proj2 (ltb_inf C FC)). reflexivity.
  Qed.

  (** linear interpolation, any profile *)
  Lemma ml_linear64 (x : f64) : finite64 x -> ys k + η < fval x <= ys (K - 1)%nat - η ->
    exists (y : f64) i r z, mixed_layer_1 f linear_interp_1 x ref b S T P = Ok y /\ (k <= i)%nat /\ (Datatypes.S i < K)%nat
      /\ S_float.within y r (dec 2 (-11)) /\ ps i <= r <= ps (Datatypes.S i) /\ between ps ys i z r /\ Rabs (z - fval x) <= η.
  Proof.
    intros Fx Hx. destruct abscissae as (DD & X & E & LD & HDD & Hr & Hz & Hn & _).
    destruct HL as [_ HkK (ss & ts & HC & _) Hps]. pose proof (cast_blk _ _ _ _ _ _ _ _ HC) as BK. destruct c' as [[S' T'] P']. destruct Hh as (_ & _ & HP). cbn [fst snd] in *.
    pose proof (blk_K _ _ _ _ _ _ BK) as HKl.
    assert (H1k : (k < K - 1)%nat).
    { destruct (Nat.lt_ge_cases k (K - 1)) as [|H1]; [assumption|exfalso]. assert (E1 : (K - 1 = k)%nat) by lia. rewrite E1 in Hx.
      pose proof (proj1 (Hn k ltac:(lia))) as NA. pose proof (Rabs_pos (X k - ys k)). lra. }
    destruct (Hz k ltac:(lia)) as (A & GA & FA & VA). destruct (Hz (K - 1)%nat ltac:(lia)) as (C & GC & FC & VC).
    destruct (Hn k ltac:(lia)) as [NA _]. destruct (Hn (K - 1)%nat ltac:(lia)) as [NC _]. apply abs_le_of in NA. apply abs_le_of in NC.
    destruct (searchsorted_edges (slice DD k K) x) as (S1 & S2 & S3). set (j := searchsorted (slice DD k K) x) in *.
    rewrite length_slice in S1, S3 by lia.
    assert (Hnth : forall m, (m < K - k)%nat -> ltb (nth m (slice DD k K) nan) x = Rlt_bool (X (k + m)%nat) (fval x)).
    { intros m Hm. destruct (Hz (k + m)%nat ltac:(lia)) as (z & Gz & Fz & <-).
      rewrite (nth_error_nth _ _ _ (eq_trans (nth_error_slice DD k K m ltac:(lia)) Gz)). exact (ltb_val z x Fz Fx). }
    assert (Hj0 : (0 < j)%nat).
    { destruct j; [|lia]. specialize (S3 ltac:(lia)). rewrite Hnth in S3 by lia. rewrite Nat.add_0_r in S3. rewrite Rlt_bool_true in S3 by lra. discriminate. }
    specialize (S2 Hj0). rewrite Hnth in S2 by lia. revert S2. destruct (Rlt_bool_spec (X (k + (j - 1))%nat) (fval x)) as [S2|]; [intros _|discriminate].
    assert (Hj1 : (j < K - k)%nat).
    { destruct (Nat.lt_ge_cases j (K - k)) as [|Hge]; [assumption|]. replace (k + (j - 1))%nat with (K - 1)%nat in S2 by lia. lra. }
    specialize (S3 Hj1). rewrite Hnth in S3 by lia. revert S3. destruct (Rlt_bool_spec (X (k + j)%nat) (fval x)) as [|S3]; [discriminate|intros _].
    set (i := (k + (j - 1))%nat) in *. replace (k + j)%nat with (Datatypes.S i) in * by (unfold i; lia).
    assert (Hi : (k <= i)%nat /\ (Datatypes.S i < K)%nat) by (unfold i; lia).
    destruct (Hz i ltac:(lia)) as (Xi & GXi & FXi & VXi). destruct (Hz (Datatypes.S i) ltac:(lia)) as (Xj & GXj & FXj & VXj).
    destruct (holds_get P P' i _ HP (blk_X _ _ _ _ _ _ BK i ltac:(lia))) as (Yi & GYi & FYi & VYi).
    destruct (holds_get P P' (Datatypes.S i) _ HP (blk_X _ _ _ _ _ _ BK (Datatypes.S i) ltac:(lia))) as (Yj & GYj & FYj & VYj).
    destruct (Hn i ltac:(lia)) as (Ni & Gi & Bi). destruct (Hn (Datatypes.S i) ltac:(lia)) as (Nj & Gj & Bj).
    assert (Hap : powerRZ 2 (-900) <= fval Xj - fval Xi <= powerRZ 2 900).
    { rewrite VXi, VXj. split.
      - apply Rle_trans with (powerRZ 2 (-52)); [apply pow2_le; lia|]. apply P_ml64.grid_apart; [exact Gi|exact Gj|lra].
      - apply Rabs_le_inv in Bi. apply Rabs_le_inv in Bj. apply Rle_trans with (powerRZ 2 14); [simpl; lra|apply pow2_le; lia]. }
    assert (HM : powerRZ 2 (-90) <= 10000 <= powerRZ 2 90).
    { split; [apply Rle_trans with (powerRZ 2 0); [apply pow2_le; lia|simpl; lra]|apply Rle_trans with (powerRZ 2 14); [simpl; lra|apply pow2_le; lia]]. }
    assert (Hxi : fval Xi <= fval x <= fval Xj) by (rewrite VXi, VXj; lra).
    assert (PYi : Rabs (fval Yi) <= 10000) by (rewrite VYi; apply HDP; apply Hps; lia).
    assert (PYj : Rabs (fval Yj) <= 10000) by (rewrite VYj; apply HDP; apply Hps; lia).
    destruct (lin_round x Xi Xj Yi Yj 10000 Fx FXi FXj FYi FYj HM Hap Hxi PYi PYj) as [Fy By].
    assert (Hinc := blk_inc _ _ _ _ _ _ BK i (proj1 Hi) (proj2 Hi)).
    rewrite VXi, VXj in *. rewrite VYi, VYj in *. set (X0 := X i) in *. set (X1 := X (Datatypes.S i)) in *. set (p0 := ps i) in *. set (p1 := ps (Datatypes.S i)) in *.
    set (y0 := ys i) in *. set (y1 := ys (Datatypes.S i)) in *.
    set (θ := (fval x - X0) / (X1 - X0)).
    assert (Hθ : 0 <= θ <= 1).
    { unfold θ. split; [apply Rmult_le_pos; [lra|left; apply Rinv_0_lt_compat; lra]|]. apply (Rmult_le_reg_r (X1 - X0)); [lra|].
      unfold Rdiv. rewrite Rmult_assoc, Rinv_l by lra. lra. }
    assert (Eθ : fval x = X0 + θ * (X1 - X0)) by (unfold θ; field; lra).
    exists (lin_y x Xi Xj Yi Yj), i, (p0 + θ * (p1 - p0)), (y0 + θ * (y1 - y0)). split; [|split; [apply Hi|split; [apply Hi|split; [|split; [|split]]]]].
    - rewrite E. unfold linear_interp_1, ppinterp_1, locate. rewrite Hr. cbn [bind]. rewrite (proj2 (Nat.leb_gt _ _) H1k). cbn [orb].
      change (isnan x) with (sf_isnan x). rewrite (finite_isnan _ Fx), (get_ok _ _ _ GA), (get_ok _ _ _ GC). cbn [bind].
      change (ltb x A) with (SFltb x A). change (ltb C x) with (SFltb C x). rewrite !ltb_val by assumption. rewrite VA, VC.
      rewrite !Rlt_bool_false by lra. fold j. replace (Nat.max k (j + k - 1)) with i by (unfold i; lia). cbn [bind].
      unfold linear_coeffs_i. replace (i + 1)%nat with (Datatypes.S i) by lia.
      rewrite (get_ok _ _ _ GYj), (get_ok _ _ _ GYi), (get_ok _ _ _ GXj), (get_ok _ _ _ GXi). cbn [bind].
      rewrite P_coeffs.sdiv_ok by (apply apart_nz; [exact FXi|exact FXj|rewrite VXi, VXj; exact Hap]). reflexivity.
    - split; [exact Fy|]. replace (p0 + θ * (p1 - p0)) with (p0 + (fval x - X0) * ((p1 - p0) / (X1 - X0))) by (unfold θ; field; lra).
      eapply Rle_trans; [exact By|]. unfold dec. simpl. lra.
    - fold p0 p1. assert (0 <= θ * (p1 - p0)) by (apply Rmult_le_pos; lra). assert (θ * (p1 - p0) <= 1 * (p1 - p0)) by (apply Rmult_le_compat_r; lra). lra.
    - unfold between. fold p0 p1 y0 y1. ring.
    - rewrite Eθ. replace (y0 + θ * (y1 - y0) - (X0 + θ * (X1 - X0))) with (- ((1 - θ) * (X0 - y0) + θ * (X1 - y1))) by ring.
      rewrite Rabs_Ropp. eapply Rle_trans; [apply Rabs_triang|]. rewrite !Rabs_mult, (Rabs_pos_eq (1 - θ)), (Rabs_pos_eq θ) by lra.
      assert ((1 - θ) * Rabs (X0 - y0) <= (1 - θ) * η) by (apply Rmult_le_compat_l; lra).
      assert (θ * Rabs (X1 - y1) <= θ * η) by (apply Rmult_le_compat_l; lra). lra.
  Qed.

  (** stable profiles *)
  Lemma ml_stable64 interp fn rel e (x : f64) : pressure_scheme64 interp fn rel e -> (k + 1 < K)%nat ->
    (forall i, (k <= i)%nat -> (Datatypes.S i < K)%nat -> 3 * η <= ys (Datatypes.S i) - ys i) -> float64 x ->
    exists y : f64, mixed_layer_1 f fn x ref b S T P = Ok y /\ interpolated64 rel η e k K ys ps x y.
  Proof.
    intros Hsch HK Hst Hx. destruct abscissae as (DD & X & E & LD & HDD & Hr & Hz & Hn & HBl).
    destruct HL as [_ HkK (ss & ts & HC & _) Hps]. destruct c' as [[S' T'] P']. destruct Hh as (_ & _ & HP). cbn [fst snd] in *.
    assert (D6 : dec 6 (-12) = 6 / 1000000000000) by (unfold dec; simpl; lra). rewrite D6 in Hη.
    assert (Hs : steps k K X η (powerRZ 2 14)).
    { intros i H1 H2. destruct (Hn i ltac:(lia)) as (Ni & _ & Bi). destruct (Hn (Datatypes.S i) ltac:(lia)) as (Nj & _ & Bj). specialize (Hst i H1 H2).
      apply abs_le_of in Ni. apply abs_le_of in Nj. apply Rabs_le_inv in Bi. apply Rabs_le_inv in Bj. split; [lra|]. simpl. lra. }
    assert (BK := HBl ltac:(intros i H1 H2; destruct (Hs i H1 H2) as [H _]; lra)).
    assert (HM : powerRZ 2 (-90) <= 10000 <= powerRZ 2 90).
    { split; [apply Rle_trans with (powerRZ 2 0); [apply pow2_le; lia|simpl; lra]|apply Rle_trans with (powerRZ 2 14); [simpl; lra|apply pow2_le; lia]]. }
    assert (Hw : forall a a', (a <= -40)%Z -> (14 <= a')%Z -> steps k K X (powerRZ 2 a) (powerRZ 2 a')).
    { intros a a' Ha Ha' i H1 H2. destruct (Hs i H1 H2) as [A1 A2]. split.
      - apply Rle_trans with (powerRZ 2 (-40)); [apply pow2_le; lia|]. apply Rle_trans with η; [|exact A1]. simpl. lra.
      - apply Rle_trans with (powerRZ 2 14); [exact A2|apply pow2_le; lia]. }
    assert (Hpb : forall i, (k <= i < K)%nat -> Rabs (ps i) <= 10000) by (intros i Hi; apply HDP; apply Hps; exact Hi).
    assert (G : forall w w' M', interpolates64 (fun x X Y => fn x X Y 0%nat) rel w w' 10000 M' -> steps k K X w w' -> M' <= e ->
       exists y : f64, mixed_layer_1 f fn x ref b S T P = Ok y /\ interpolated64 rel η e k K ys ps x y).
    { intros w w' M' HI Hsw HM'. destruct (HI DD P _ P' k K X ps HDD HP BK HK Hsw Hpb) as (g & Hrel & _ & _ & Hg).
      destruct (Hg x Hx) as [Hin Hout]. rewrite E.
      assert (Dec : inside64 x (X k) (X (K - 1)%nat) \/ ~ inside64 x (X k) (X (K - 1)%nat)).
      { destruct Hx as [Fx|Hx].
        - destruct (Rle_dec (X k) (fval x)), (Rle_dec (fval x) (X (K - 1)%nat)).
          + left. split; [exact Fx|lra].
          + right. intros [_ H]. lra.
          + right. intros [_ H]. lra.
          + right. intros [_ H]. lra.
        - right. intros [Fx _]. change (isfinite x) with (sf_isfinite x) in Hx. rewrite (finite_isfinite x Fx) in Hx. discriminate. }
      destruct Dec as [I|O].
      - destruct (Hin I) as (y & Ey & Wy). exists y. split; [exact Ey|]. exists X, g. split; [intros i Hi; apply (Hn i Hi)|]. split; [exact Hrel|]. split.
        + intros _. eapply within_mono; [exact HM'|exact Wy].
        + intros O. destruct (O I).
      - exists nan. split; [exact (Hout O)|]. exists X, g. split; [intros i Hi; apply (Hn i Hi)|]. split; [exact Hrel|]. split; [intros I; destruct (O I)|reflexivity]. }
    destruct Hsch.
    - apply (G _ _ _ (linear_fly64 10000 HM)); [apply Hw; lia|]. unfold dec. simpl. lra.
    - apply (G _ _ _ (pchip_fly64 10000 HM)); [apply Hw; lia|]. unfold dec. simpl. lra.
  Qed.
End Layers.
