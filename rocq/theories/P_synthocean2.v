(** * The synthetic ocean: walls, pressures, profiles and surface *)
From Coq Require Import ZArith Bool Reals Lra Lia List.
From Verif Require Import Num XR Res Arr ArrLemmas Nd NdLemmas XRlemmas M_eos_base M_synthocean S_synthocean P_synthocean.
Import ListNotations.
Local Open Scope R_scope.

Lemma wallb_spec w0 w1 i j : wallb w0 w1 i j = true <-> on_wall w0 w1 i j.
Proof.
  unfold wallb, on_wall. rewrite orb_true_iff, !andb_true_iff, !negb_true_iff, !Nat.eqb_eq. tauto.
Qed.

Lemma poly_ends : polyT (-80) < polyT 60.
Proof. unfold polyT. cbv zeta. lra. Qed.

Lemma latitude_first nj : latitude nj 0 = -80.
Proof. unfold latitude, lin, fraction. simpl. lra. Qed.
Lemma fraction_last n : (2 <= n)%nat -> fraction (n - 1) n = 1.
Proof. intros H. unfold fraction. apply Rinv_r. apply not_0_INR. lia. Qed.
Lemma fraction_first n : fraction 0 n = 0.
Proof. unfold fraction. simpl. lra. Qed.
Lemma fraction_range i n : (i < n)%nat -> 0 <= fraction i n <= 1.
Proof.
  intros H. unfold fraction. destruct (Nat.eq_dec n 1) as [->|E].
  - replace i with O by lia. simpl. lra.
  - assert (P : 0 < INR (n - 1)) by (apply lt_0_INR; lia). assert (Q : INR i <= INR (n - 1)) by (apply le_INR; lia). pose proof (pos_INR i). split.
    + apply Rmult_le_pos; [lra|]. left. apply Rinv_0_lt_compat. exact P.
    + apply (Rmult_le_reg_r (INR (n - 1))); [exact P|]. field_simplify; lra.
Qed.

Lemma lo_hi ni nj zu lo hi : (0 < ni)%nat -> (0 < nj)%nat ->
  (exists i j, (i < ni)%nat /\ (j < nj)%nat /\ lo = rawT ni nj zu i j) -> (forall i j, (i < ni)%nat -> (j < nj)%nat -> lo <= rawT ni nj zu i j) ->
  (exists i j, (i < ni)%nat /\ (j < nj)%nat /\ hi = rawT ni nj zu i j) -> (forall i j, (i < ni)%nat -> (j < nj)%nat -> rawT ni nj zu i j <= hi) ->
  (varied ni nj zu -> lo < hi) /\ (~ varied ni nj zu -> lo = hi).
Proof.
  intros Hi Hj (i1 & j1 & Hi1 & Hj1 & E1) L (i2 & j2 & Hi2 & Hj2 & E2) U. split.
  - intros [V|[V ->]].
    + pose proof (L O O Hi Hj) as A. pose proof (U O (nj - 1)%nat Hi ltac:(lia)) as B.
      pose proof poly_ends as C. unfold rawT in A, B.
      assert (D : latitude nj (nj - 1) = 60) by (unfold latitude, lin; rewrite fraction_last by exact V; lra).
      rewrite latitude_first in A. rewrite D in B. destruct zu; lra.
    + pose proof (U O O Hi Hj) as A. pose proof (L (ni - 1)%nat O ltac:(lia) Hj) as B. unfold rawT in A, B.
      unfold lin in A, B. rewrite fraction_first in A. rewrite fraction_last in B by exact V. lra.
  - intros V. assert (j1 = 0 /\ j2 = 0)%nat as [-> ->] by (unfold varied in V; lia). rewrite E1, E2. unfold rawT. destruct zu; [reflexivity|].
    assert (~ (2 <= ni)%nat) by (intros H; apply V; right; auto). assert (i1 = 0 /\ i2 = 0)%nat as [-> ->] by lia. reflexivity.
Qed.

Section Run.
  Variables (ni nj nk : nat) (pbot a : R) (zu w0 w1 : bool) (S T : nd xr) (P : list xr).
  Hypothesis Hi : (0 < ni)%nat.
  Hypothesis Hj : (0 < nj)%nat.
  Hypothesis E : synthocean (Z.of_nat ni) (Z.of_nat nj) (Z.of_nat nk) (Fin pbot) (Fin a) zu w0 w1 = Ok (S, T, P).

  Lemma run_result : exists lo hi, result ni nj nk pbot a zu w0 w1 S T P lo hi /\ (varied ni nj zu -> lo < hi) /\ (~ varied ni nj zu -> lo = hi).
  Proof.
    destruct (whole ni nj nk pbot a zu w0 w1 Hi Hj) as (S' & T' & P' & lo & hi & E' & R). rewrite E in E'. injection E' as <- <- <-.
    exists lo, hi. split; [exact R|]. destruct R as (A1 & A2 & A3 & A4 & _). exact (lo_hi ni nj zu lo hi Hi Hj A1 A2 A3 A4).
  Qed.

  Theorem walls_exactly :
    wf S /\ wf T /\ shape S = [ni; nj; nk] /\ shape T = [ni; nj; nk] /\ length P = nk
    /\ forall i j k, (i < ni)%nat -> (j < nj)%nat -> (k < nk)%nat ->
         (on_wall w0 w1 i j -> at_ S [i; j; k] = Some NaN /\ at_ T [i; j; k] = Some NaN)
         /\ (~ on_wall w0 w1 i j -> finite (at_ S [i; j; k]) /\ (varied ni nj zu -> finite (at_ T [i; j; k])))
         /\ (~ varied ni nj zu -> at_ T [i; j; k] = Some NaN).
  Proof.
    destruct run_result as (lo & hi & (_ & _ & _ & _ & (WS & SS & HS) & (WT & ST & HT) & HP) & V1 & V2).
    split; [exact WS|]. split; [exact WT|]. split; [exact SS|]. split; [exact ST|]. split; [rewrite HP, map_length, seq_length; reflexivity|].
    intros i j k Ai Aj Ak. rewrite HS, HT by assumption. split; [|split].
    - intros W. apply wallb_spec in W. rewrite W. auto.
    - intros W. destruct (wallb w0 w1 i j) eqn:Ew; [apply wallb_spec in Ew; contradiction|]. split; [eexists; reflexivity|].
      intros V. destruct (Req_EM_T lo hi) as [Q|Q]; [specialize (V1 V); lra|]. eexists; reflexivity.
    - intros V. destruct (wallb w0 w1 i j); [reflexivity|]. destruct (Req_EM_T lo hi) as [Q|Q]; [reflexivity|]. specialize (V2 V). contradiction.
  Qed.

  Lemma pressure_nth k : (k < nk)%nat -> nth_error P k = Some (Fin (fraction k nk ^ 3 * pbot)).
  Proof.
    intros Hk. destruct run_result as (lo & hi & (_ & _ & _ & _ & _ & _ & ->) & _).
    apply (nth_error_map_seq (fun k => Fin (fraction k nk ^ 3 * pbot))). exact Hk.
  Qed.

  Theorem pressures : (2 <= nk)%nat ->
    nth_error P 0 = Some (Fin 0) /\ nth_error P (nk - 1) = Some (Fin pbot)
    /\ (0 < pbot -> forall k, (k + 1 < nk)%nat -> exists p q, nth_error P k = Some (Fin p) /\ nth_error P (k + 1) = Some (Fin q) /\ p < q).
  Proof.
    intros Hk. split; [rewrite pressure_nth by lia; rewrite fraction_first; do 2 f_equal; ring|].
    split; [rewrite pressure_nth by lia; rewrite fraction_last by exact Hk; do 2 f_equal; ring|].
    intros Hp k Hk'. do 2 eexists. split; [apply pressure_nth; lia|]. split; [apply pressure_nth; lia|].
    apply Rmult_lt_compat_r; [exact Hp|]. assert (Q : 0 < INR (nk - 1)) by (apply lt_0_INR; lia).
    pose proof (fraction_range k nk ltac:(lia)) as [A _].
    assert (B : fraction k nk < fraction (k + 1) nk).
    { unfold fraction. rewrite plus_INR. apply Rmult_lt_compat_r; [apply Rinv_0_lt_compat; exact Q|simpl; lra]. }
    set (x := fraction k nk) in *. set (y := fraction (k + 1) nk) in *. clearbody x y.
    assert (C : 0 < (y - x) * (y * y + x * y + x * x)) by (apply Rmult_lt_0_compat; nra). simpl. lra.
  Qed.

  Theorem one_level : nk = 1%nat -> P = [Fin 0].
  Proof.
    intros K. destruct run_result as (lo & hi & (_ & _ & _ & _ & _ & _ & ->) & _). rewrite K. cbn [seq map]. rewrite fraction_first. f_equal. f_equal. ring.
  Qed.

  (** between the surface and the bottom *)
  Theorem profiles : (2 <= nk)%nat -> varied ni nj zu -> forall i j, (i < ni)%nat -> (j < nj)%nat -> ~ on_wall w0 w1 i j ->
    let sb := 347 / 10 - 2 / 10 * fraction j nj in let tb := fraction j nj - 19 / 10 in
    exists s t, forall k, (k < nk)%nat -> at_ S [i; j; k] = Some (Fin (s + fraction k nk * (sb - s))) /\ at_ T [i; j; k] = Some (Fin (t + fraction k nk * (tb - t))).
  Proof.
    intros Hk V i j Ai Aj W sb tb. destruct run_result as (lo & hi & (_ & _ & _ & _ & (_ & _ & HS) & (_ & _ & HT) & _) & V1 & _).
    exists (surfS ni nj a zu i j), (scaled lo hi (rawT ni nj zu i j)). intros k Ak. rewrite HS, HT by assumption.
    destruct (wallb w0 w1 i j) eqn:Ew; [apply wallb_spec in Ew; contradiction|]. destruct (Req_EM_T lo hi) as [Q|Q]; [specialize (V1 V); lra|].
    unfold between, sb, tb, botS, botT, lin. split; do 2 f_equal; lra.
  Qed.

  Lemma scaled_range lo hi t : lo < hi -> lo <= t <= hi -> -18 / 10 <= scaled lo hi t <= 30.
  Proof.
    intros H [A B]. unfold scaled. assert (C : 0 <= (t - lo) / (hi - lo) <= 1).
    { split; [apply Rmult_le_pos; [lra|left; apply Rinv_0_lt_compat; lra]|]. apply (Rmult_le_reg_r (hi - lo)); [lra|]. unfold Rdiv. rewrite Rmult_assoc, Rinv_l by lra. lra. }
    lra.
  Qed.

  Theorem temperatures : varied ni nj zu -> forall i j, (i < ni)%nat -> (j < nj)%nat -> ~ on_wall w0 w1 i j ->
    (forall k, (k < nk)%nat -> exists t, at_ T [i; j; k] = Some (Fin t) /\ -19 / 10 <= t <= 30)
    /\ ((0 < nk)%nat -> exists t, at_ T [i; j; 0%nat] = Some (Fin t) /\ -18 / 10 <= t <= 30).
  Proof.
    intros V i j Ai Aj W. destruct run_result as (lo & hi & (_ & L & _ & U & (_ & _ & HS) & (_ & _ & HT) & _) & V1 & _). specialize (V1 V).
    pose proof (scaled_range lo hi (rawT ni nj zu i j) V1 (conj (L i j Ai Aj) (U i j Ai Aj))) as R.
    assert (Q : forall k, (k < nk)%nat -> at_ T [i; j; k] = Some (Fin (between (fraction k nk) (botT nj j) (scaled lo hi (rawT ni nj zu i j))))).
    { intros k Ak. rewrite HT by assumption. destruct (wallb w0 w1 i j) eqn:Ew; [apply wallb_spec in Ew; contradiction|]. destruct (Req_EM_T lo hi); [lra|reflexivity]. }
    split.
    - intros k Ak. eexists. split; [apply Q; exact Ak|]. pose proof (fraction_range k nk Ak) as F. pose proof (fraction_range j nj Aj) as G. unfold between, botT.
      set (x := fraction k nk) in *. set (y := fraction j nj) in *. set (z := scaled lo hi (rawT ni nj zu i j)) in *. clearbody x y z. nra.
    - intros Ak. eexists. split; [apply Q; exact Ak|]. rewrite fraction_first. unfold between. lra.
  Qed.

  Theorem extremes : varied ni nj zu -> w0 = true -> w1 = true -> (0 < nk)%nat ->
    (exists i j, (i < ni)%nat /\ (j < nj)%nat /\ at_ T [i; j; 0%nat] = Some (Fin (-18 / 10)))
    /\ (exists i j, (i < ni)%nat /\ (j < nj)%nat /\ at_ T [i; j; 0%nat] = Some (Fin 30)).
  Proof.
    intros V W0 W1 Ak. destruct run_result as (lo & hi & ((i1 & j1 & A1 & B1 & E1) & _ & (i2 & j2 & A2 & B2 & E2) & _ & _ & (_ & _ & HT) & _) & V1 & _). specialize (V1 V).
    split; [exists i1, j1|exists i2, j2]; (split; [assumption|]; split; [assumption|]); rewrite HT by assumption; rewrite W0, W1; cbn [wallb negb andb orb];
      (destruct (Req_EM_T lo hi); [lra|]); rewrite fraction_first; unfold between, scaled; [rewrite <- E1|rewrite <- E2]; do 2 f_equal; field; lra.
  Qed.

  (** zonally uniform *)
  Theorem uniform : zu = true -> forall i i' j k, (i < ni)%nat -> (i' < ni)%nat -> (j < nj)%nat -> (k < nk)%nat ->
    ~ on_wall w0 w1 i j -> ~ on_wall w0 w1 i' j -> at_ S [i; j; k] = at_ S [i'; j; k] /\ at_ T [i; j; k] = at_ T [i'; j; k].
  Proof.
    intros Z i i' j k Ai Ai' Aj Ak W W'. destruct run_result as (lo & hi & (_ & _ & _ & _ & (_ & _ & HS) & (_ & _ & HT) & _) & _). rewrite !HS, !HT by assumption.
    destruct (wallb w0 w1 i j) eqn:Ew; [apply wallb_spec in Ew; contradiction|]. destruct (wallb w0 w1 i' j) eqn:Ew'; [apply wallb_spec in Ew'; contradiction|].
    unfold surfS, rawT. rewrite Z. auto.
  Qed.
End Run.

(** the southern surface salinity anomaly *)
Theorem tilt ni nj nk pbot a pbot' a' zu w0 w1 S T P S' T' P' : (0 < ni)%nat -> (0 < nj)%nat ->
  synthocean (Z.of_nat ni) (Z.of_nat nj) (Z.of_nat nk) (Fin pbot) (Fin a) zu w0 w1 = Ok (S, T, P) ->
  synthocean (Z.of_nat ni) (Z.of_nat nj) (Z.of_nat nk) (Fin pbot') (Fin a') zu w0 w1 = Ok (S', T', P') ->
  T = T' /\ forall i j, (i < ni)%nat -> (j < nj)%nat -> (0 < nk)%nat -> ~ on_wall w0 w1 i j ->
    exists s s', at_ S [i; j; 0%nat] = Some (Fin s) /\ at_ S' [i; j; 0%nat] = Some (Fin s') /\ s - s' = (1 - fraction j nj) * (a - a').
Proof.
  intros Hi Hj E E'. split.
  - unfold synthocean in E, E'. unfold bind in E, E'.
    repeat (match type of E with match ?x with _ => _ end = _ => lazymatch x with context [surface_S] => fail | _ => destruct x eqn:?; try discriminate end end).
    repeat (match type of E' with match ?x with _ => _ end = _ => lazymatch x with context [walls] => fail | _ => destruct x eqn:?; try discriminate end end).
    repeat (match type of E with match ?x with _ => _ end = _ => destruct x eqn:?; try discriminate end).
    repeat (match type of E' with match ?x with _ => _ end = _ => destruct x eqn:?; try discriminate end).
    congruence.
  - intros i j Ai Aj Ak W.
    destruct (run_result ni nj nk pbot a zu w0 w1 S T P Hi Hj E) as (lo & hi & (_ & _ & _ & _ & (_ & _ & HS) & _) & _).
    destruct (run_result ni nj nk pbot' a' zu w0 w1 S' T' P' Hi Hj E') as (lo' & hi' & (_ & _ & _ & _ & (_ & _ & HS') & _) & _).
    rewrite HS, HS' by assumption. destruct (wallb w0 w1 i j) eqn:Ew; [apply wallb_spec in Ew; contradiction|].
    do 2 eexists. split; [reflexivity|]. split; [reflexivity|]. rewrite fraction_first. unfold between, surfS, lin. ring.
Qed.

(** shapes that are refused *)
Lemma linspace_negative (a b : xr) n : (n < 0)%Z -> np_linspace a b n = Err ValueError.
Proof. intros H. unfold np_linspace. apply Z.ltb_lt in H. rewrite H. reflexivity. Qed.

Theorem bad_shape ni nj nk pbot a zu w0 w1 : (ni <= 0)%Z \/ (nj <= 0)%Z \/ (nk < 0)%Z ->
  synthocean ni nj nk (Fin pbot) (Fin a) zu w0 w1 = Err ValueError.
Proof.
  intros H. destruct (Z.ltb_spec ni 0) as [A|A]; [unfold synthocean; rewrite linspace_negative by exact A; reflexivity|].
  destruct (Z.ltb_spec nj 0) as [B|B].
  { unfold synthocean. replace ni with (Z.of_nat (Z.to_nat ni)) by lia. change (@one xr _) with (Fin (Rlit 1 0)). cbn [lit xrNum]. rewrite linspace_real. cbn [bind].
    rewrite linspace_negative by exact B. reflexivity. }
  destruct (Z.eq_dec ni 0) as [->|Ni].
  { unfold synthocean. change (np_linspace (lit (-1) 0) one 0) with (@Ok (list xr) []). cbn [bind]. unfold Ysouth, Ynorth. cbn [lit xrNum].
    replace nj with (Z.of_nat (Z.to_nat nj)) by lia. rewrite !linspace_real. cbn [bind]. unfold surface_T. destruct zu; [reflexivity|].
    rewrite !Rlit_0. change (along1 (map (fun i => Fin (lin (-80) 60 (Z.to_nat nj) i)) (seq 0 (Z.to_nat nj)))) with (lats (Z.to_nat nj)).
    change (along0 []) with (lons 0). destruct (rawT_is3 0 (Z.to_nat nj) false) as (x & E & Hx). rewrite E. cbn [bind].
    destruct Hx as (W & Sh & _). unfold wf in W. rewrite Sh in W. unfold np_min. destruct (elems x); [reflexivity|discriminate]. }
  destruct (Z.eq_dec nj 0) as [->|Nj].
  { unfold synthocean. change (@one xr _) with (Fin (Rlit 1 0)). cbn [lit xrNum]. replace ni with (Z.of_nat (Z.to_nat ni)) by lia. rewrite linspace_real. cbn [bind].
    change (np_linspace Ysouth Ynorth 0) with (@Ok (list xr) []). cbn [bind]. unfold surface_T. rewrite !Rlit_0.
    change (along0 (map (fun i => Fin (lin (-1) 1 (Z.to_nat ni) i)) (seq 0 (Z.to_nat ni)))) with (lons (Z.to_nat ni)). change (along1 []) with (lats 0).
    destruct (rawT_is3 (Z.to_nat ni) 0 zu) as (x & E & Hx). rewrite E. cbn [bind].
    destruct Hx as (W & Sh & _). unfold wf in W. rewrite Sh in W. cbn [prod] in W. unfold np_min. destruct (elems x); [reflexivity|simpl in W; lia]. }
  assert (K : (nk < 0)%Z) by lia.
  unfold synthocean. change (@zero xr _) with (Fin (Rlit 0 0)). change (@one xr _) with (Fin (Rlit 1 0)).
  unfold Ysouth, Ynorth. cbn [lit xrNum]. rlit. replace ni with (Z.of_nat (Z.to_nat ni)) by lia. replace nj with (Z.of_nat (Z.to_nat nj)) by lia. rewrite !linspace_real. cbn [bind].
  change (along0 (map (fun i => Fin (lin (-1) 1 (Z.to_nat ni) i)) (seq 0 (Z.to_nat ni)))) with (lons (Z.to_nat ni)).
  change (along1 (map (fun i => Fin (lin (-80) 60 (Z.to_nat nj) i)) (seq 0 (Z.to_nat nj)))) with (lats (Z.to_nat nj)).
  destruct (surface_T_spec (Z.to_nat ni) (Z.to_nat nj) zu ltac:(lia) ltac:(lia)) as (Ts & lo & hi & -> & _). cbn [bind].
  destruct (surface_S_spec (Z.to_nat ni) (Z.to_nat nj) a zu) as (Ss & -> & _). cbn [bind].
  unfold fill. rewrite linspace_negative by exact K. reflexivity.
Qed.
