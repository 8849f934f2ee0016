(** * Mixed layer: proofs *)
From Coq Require Import String ZArith Bool Reals Lra Lia List.
From Verif Require Import Num XR Res Arr ArrLemmas Nd NdLemmas XRlemmas M_numpy M_lib M_ppinterp P_numpy S_interp S_traj S_lib P_ppinterp P_pval
  P_pchip P_interp P_coeffs NumLaws P_interp2 P_casts M_make_pp M_eos_base M_eostools M_mixed_layer S_mixed_layer.
Import ListNotations.
Local Open Scope R_scope.

Section Columns.
  Context {F : Type} {N : Num F}.

  Lemma nth_error_mapM {A B} (f : A -> res B) l m i a : mapM f l = Ok m -> nth_error l i = Some a ->
    exists b, f a = Ok b /\ nth_error m i = Some b.
  Proof. intros Hm Hi. destruct (proj2 (mapM_inv f l m Hm) i a Hi) as (y & Hy & Hf). exists y. split; assumption. Qed.
  Lemma length_mapM {A B} (f : A -> res B) l m : mapM f l = Ok m -> length m = length l.
  Proof. intros Hm. apply (mapM_inv f l m Hm). Qed.

  Lemma py_slice_one {A} (l : list A) b i x : py_index (length l) b i -> nth_error l i = Some x ->
    py_slice l b (b + 1) = [x].
  Proof.
    intros [Hi Hb] Hx. unfold py_slice.
    assert (E1 : py_bound (length l) b = i).
    { unfold py_bound. destruct (Z.ltb_spec b 0); lia. }
    assert (E2 : py_bound (length l) (b + 1) = S i).
    { unfold py_bound. destruct (Z.ltb_spec (b + 1) 0); lia. }
    rewrite E1, E2.
    pose proof (length_slice l i (S i) ltac:(lia)) as Ln. pose proof (nth_error_slice l i (S i) 0%nat ltac:(lia)) as H0.
    rewrite Nat.add_0_r, Hx in H0. destruct (slice l i (S i)) as [|y [|z r]]; [discriminate|injection H0 as ->; reflexivity|].
    cbn [length] in Ln. lia.
  Qed.

  Lemma py_slice_none {A} (l : list A) b : (b = -1 \/ b < - Z.of_nat (length l) \/ Z.of_nat (length l) <= b)%Z ->
    py_slice l b (b + 1) = [].
  Proof.
    intros Hb. unfold py_slice, slice.
    assert (E : (py_bound (length l) (b + 1) - py_bound (length l) b = 0)%nat).
    { unfold py_bound. destruct (Z.ltb_spec b 0), (Z.ltb_spec (b + 1) 0); lia. }
    rewrite E. reflexivity.
  Qed.
End Columns.

Section Column.
  Variables (f : xr -> xr -> xr -> res xr) (ref : xr) (S T P : list xr) (k K : nat) (ss ts ps sig : nat -> R).
  Hypothesis HC : cast S T P k K ss ts ps.
  Hypothesis HD : pot_density f ref S T k K sig.
  Variables (b : Z) (B : nat).
  Hypothesis Hb : py_index (length S) b B.
  Hypothesis HB : (k <= B < K)%nat.

  Notation dd := (excess sig B).

  Lemma lens : length S = length P /\ length T = length P.
  Proof.
    pose proof (blk_len _ _ _ _ _ _ (cast_blk _ _ _ _ _ _ _ _ HC)). pose proof (cast_lenT _ _ _ _ _ _ _ _ HC). split; congruence.
  Qed.

  (** the array DD *)
  Lemma excess_array : exists DD,
    (forall g x, mixed_layer_1 f g x ref b S T P = g x DD P 0%nat)
    /\ length DD = length P
    /\ (forall i, (k <= i < K)%nat -> nth_error DD i = Some (Fin (dd i)))
    /\ (forall i, nth_error S i = Some NaN -> nth_error DD i = Some NaN).
  Proof.
    destruct lens as [LS LT]. destruct (pd_sample _ _ _ _ _ _ _ HD) as (e & Ee & Hs).
    destruct (mapM_ok (fun st => f (fst st) (snd st) ref) (combine S T)) as (d & Ed & Ld & _).
    { intros [s t] Hin. apply In_nth_error in Hin. destruct Hin as [i Hi].
      rewrite nth_error_combine in Hi. destruct (nth_error S i) eqn:E1, (nth_error T i) eqn:E2; try discriminate. injection Hi as -> ->.
      destruct (pd_other _ _ _ _ _ _ _ HD i s t E1 E2) as (v & Ev & _). exists v. exact Ev. }
    assert (Ln : length (combine S T) = length P) by (rewrite combine_length; lia).
    assert (Hd : forall i s t, nth_error S i = Some s -> nth_error T i = Some t -> exists v, f s t ref = Ok v /\ nth_error d i = Some v).
    { intros i s t E1 E2. apply (nth_error_mapM _ _ _ _ (s, t) Ed). rewrite nth_error_combine, E1, E2. reflexivity. }
    pose proof (cast_blk _ _ _ _ _ _ _ _ HC) as BK.
    assert (GS : forall i, (k <= i < K)%nat -> nth_error S i = Some (Fin (ss i))) by (intros; apply (blk_Y _ _ _ _ _ _ BK); assumption).
    assert (GT : forall i, (k <= i < K)%nat -> nth_error T i = Some (Fin (ts i))) by (intros; apply (cast_T _ _ _ _ _ _ _ _ HC); assumption).
    destruct (Hd B _ _ (GS B HB) (GT B HB)) as (vB & EB & _).
    destruct (Hs B _ _ HB (GS B HB) (GT B HB)) as (rB & ErB & HrB). rewrite ErB in EB. injection EB as <-.
    assert (EdB : eos_column f (py_slice S b (b + 1)) (py_slice T b (b + 1)) ref = Ok [Fin rB]).
    { rewrite (py_slice_one S b B _ Hb (GS B HB)). rewrite (py_slice_one T b B (Fin (ts B))); [|rewrite LT, <- LS; assumption|apply GT; assumption].
      unfold eos_column. cbn [combine mapM fst snd]. rewrite ErB. reflexivity. }
    assert (NB : forall h (x : list xr) (y : xr), x <> [] -> np_bin h x [y] = Ok (map (fun u => h u y) x)).
    { intros h x y Hx. unfold np_bin. destruct x as [|u [|w x]]; [congruence|reflexivity|reflexivity]. }
    assert (Nd : d <> []).
    { intros E. subst d. cbn in Ld. pose proof (blk_K _ _ _ _ _ _ BK). pose proof (length_mapM _ _ _ Ed). lia. }
    assert (L0 : length d = length P) by (rewrite (length_mapM _ _ _ Ed); assumption).
    set (DD := if Rltb 1 e then map (fun u => xr_sub u (Fin rB)) d
               else map (fun u => xr_sub u (xr_div (Fin 1) (Fin rB))) (map (xr_div (Fin 1)) d)).
    exists DD. split; [|split; [|split]].
    - intros g x. unfold mixed_layer_1. rewrite EdB. unfold eos_column. rewrite Ed.
      replace (@lit xr _ 345 (-1)) with (Fin (69 / 2)) by (cbn [lit xrNum]; unfold Rlit; simpl; f_equal; lra).
      cbn [lit xrNum]. rewrite !Rlit_0. rewrite Ee. cbn [bind ltb xr_ltb xrNum].
      change (IZR 1) with 1. unfold DD. destruct (Rltb 1 e).
      + rewrite NB by assumption. cbn [bind]. rewrite map_length, L0, Nat.eqb_refl. reflexivity.
      + cbn [map div xrNum]. rewrite NB by (destruct d; [congruence|discriminate]). cbn [bind].
        rewrite !map_length, L0, Nat.eqb_refl. reflexivity.
    - unfold DD. destruct (Rltb 1 e); rewrite !map_length; assumption.
    - intros i Hi. destruct (Hd i _ _ (GS i Hi) (GT i Hi)) as (v & Ev & Hv).
      destruct (Hs i _ _ Hi (GS i Hi) (GT i Hi)) as (r & Er & Hr). rewrite Er in Ev. injection Ev as <-.
      unfold DD, excess. destruct (Rltb_spec 1 e) as [H1|H1].
      + rewrite nth_error_map, Hv. cbn [option_map xr_sub xr_add xr_opp]. destruct Hr as [[_ ->]|[? _]]; [|lra]. destruct HrB as [[_ ->]|[? _]]; [|lra].
        unfold xr_sub. cbn [xr_add xr_opp]. do 2 f_equal.
      + rewrite !nth_error_map, Hv. cbn [option_map]. destruct Hr as [[? _]|(_ & Hr & ->)]; [lra|]. destruct HrB as [[? _]|(_ & HrB & ->)]; [lra|].
        rewrite !xr_div_fin by assumption. unfold xr_sub. cbn [xr_add xr_opp]. do 2 f_equal.
    - intros i Hi.
      assert (exists t, nth_error T i = Some t) as [t Ht].
      { destruct (nth_error T i) as [t|] eqn:E; [eauto|]. apply nth_error_None in E. apply nth_error_lt in Hi. lia. }
      destruct (Hd i _ _ Hi Ht) as (v & Ev & Hv). destruct (pd_other _ _ _ _ _ _ _ HD i _ _ Hi Ht) as (v' & Ev' & Hn).
      rewrite Ev in Ev'. injection Ev' as <-. rewrite (Hn eq_refl) in *.
      unfold DD. destruct (Rltb 1 e); rewrite !nth_error_map, Hv; reflexivity.
  Qed.

  (** the valid range of DD and P is that of the cast *)
  Lemma excess_range DD : length DD = length P -> (forall i, (k <= i < K)%nat -> nth_error DD i = Some (Fin (dd i))) ->
    (forall i, nth_error S i = Some NaN -> nth_error DD i = Some NaN) ->
    valid_range_1_two DD P = Ok (k, K) /\
    ((forall i, (k <= i)%nat -> (Datatypes.S i < K)%nat -> dd i < dd (Datatypes.S i)) -> block DD P k K dd ps).
  Proof.
    intros L HDD Hnan. pose proof (cast_blk _ _ _ _ _ _ _ _ HC) as BK.
    assert (Hpre : forall i, (i < k)%nat -> nth_error DD i = Some NaN \/ nth_error P i = Some NaN).
    { intros i Hi. destruct (blk_pre _ _ _ _ _ _ BK i Hi) as [E|E]; [right; assumption|left; apply Hnan; assumption]. }
    assert (Hpost : (K < length DD)%nat -> nth_error DD K = Some NaN \/ nth_error P K = Some NaN).
    { intros Hi. rewrite L in Hi. destruct (blk_post _ _ _ _ _ _ BK Hi) as [E|E]; [right; assumption|left; apply Hnan; assumption]. }
    assert (HX : forall i, (k <= i < K)%nat -> nth_error P i = Some (Fin (ps i))) by (apply (blk_X _ _ _ _ _ _ BK)).
    pose proof (blk_kK _ _ _ _ _ _ BK) as HkK. pose proof (blk_K _ _ _ _ _ _ BK) as HK.
    split.
    - (* values do not matter: compare with a block whose first array increases *)
      set (X := map (fun i => if andb (Nat.leb k i) (Nat.ltb i K) then Fin (INR i) else nth i DD NaN) (seq 0 (length P))).
      assert (LX : length X = length P) by (unfold X; rewrite map_length, seq_length; reflexivity).
      assert (NX : forall i, (i < length P)%nat -> nth_error X i = Some (if andb (Nat.leb k i) (Nat.ltb i K) then Fin (INR i) else nth i DD NaN)).
      { intros i Hi. unfold X. rewrite nth_error_map. rewrite (nth_error_nth' _ 0%nat) by (rewrite seq_length; assumption).
        rewrite seq_nth by assumption. reflexivity. }
      assert (BX : block X P k K INR ps).
      { constructor; try assumption; try lia.
        - intros i Hi. rewrite NX by lia. rewrite (proj2 (Nat.leb_le k i)), (proj2 (Nat.ltb_lt i K)) by lia. reflexivity.
        - intros i _ _. rewrite S_INR. lra.
        - intros i Hi. destruct (Hpre i Hi) as [E|E]; [left|right; assumption]. rewrite NX by lia.
          rewrite (proj2 (Nat.leb_gt k i)) by lia. cbn [andb]. rewrite (nth_error_nth _ _ NaN E). reflexivity.
        - intros Hl. rewrite LX in Hl. destruct (Hpost ltac:(lia)) as [E|E]; [left|right; assumption]. rewrite NX by lia.
          rewrite (proj2 (Nat.ltb_ge K K)) by lia. rewrite andb_false_r. rewrite (nth_error_nth _ _ NaN E). reflexivity. }
      rewrite <- (block_valid_range _ _ _ _ _ _ BX). unfold valid_range_1_two. rewrite LX, L.
      assert (Hsame : forall i, (i < length P)%nat -> exists x y, get DD i = Ok x /\ get X i = Ok y /\ isfinite x = isfinite y /\ isnan x = isnan y).
      { intros i Hi. destruct (nth_error DD i) as [x|] eqn:E; [|apply nth_error_None in E; lia].
        exists x, (if andb (Nat.leb k i) (Nat.ltb i K) then Fin (INR i) else nth i DD NaN).
        split; [apply get_ok; assumption|]. split; [apply get_ok; apply NX; assumption|].
        destruct (andb (Nat.leb k i) (Nat.ltb i K)) eqn:C.
        - apply andb_prop in C. destruct C as [C1 C2]. apply Nat.leb_le in C1. apply Nat.ltb_lt in C2.
          rewrite HDD in E by lia. injection E as <-. split; reflexivity.
        - rewrite (nth_error_nth _ _ NaN E). split; reflexivity. }
      rewrite (first_index_ext (seq 0 (length P)) _ (fun i => let! x := get X i in if isfinite x then let! y := get P i in Ok (isfinite y) else Ok false)).
      +
        destruct (first_index (seq 0 (length P)) (fun i => let! x := get X i in if isfinite x then let! y := get P i in Ok (isfinite y) else Ok false) (length P)) as [k'|] eqn:Ek; [|reflexivity].
        cbn [bind]. rewrite (first_index_ext _ _ (fun i => let! x := get X i in if isnan x then Ok true else let! y := get P i in Ok (isnan y))); [reflexivity|].
        intros i Hi. apply in_seq in Hi. destruct (Hsame i ltac:(lia)) as (x & y & -> & -> & _ & Hn). cbn [bind]. rewrite Hn. reflexivity.
      + intros i Hi. apply in_seq in Hi. destruct (Hsame i ltac:(lia)) as (x & y & -> & -> & Hf & _). cbn [bind]. rewrite Hf. reflexivity.
    - intros Hinc. constructor; try assumption; try lia.
  Qed.

  (** any profile, linear interpolation *)
  Lemma ml_linear_outside x : (K <= k + 1)%nat \/ x < dd k \/ dd (K - 1)%nat < x ->
    forall c, mixed_layer_1 f (ppinterp_1 c) (Fin x) ref b S T P = Ok NaN.
  Proof.
    intros H c. destruct excess_array as (DD & E & L & HDD & Hnan). rewrite E. unfold ppinterp_1, locate.
    destruct (excess_range DD L HDD Hnan) as [-> _]. pose proof (blk_kK _ _ _ _ _ _ (cast_blk _ _ _ _ _ _ _ _ HC)) as HkK. cbn [bind].
    destruct (Nat.leb_spec (K - 1) k) as [H'|H']; [reflexivity|]. cbn [orb isnan xr_isnan xrNum].
    rewrite (get_ok _ _ _ (HDD k ltac:(lia))), (get_ok _ _ _ (HDD (K - 1)%nat ltac:(lia))). cbn [bind ltb xr_ltb xrNum].
    destruct (Rltb_spec x (dd k)); [reflexivity|]. destruct (Rltb_spec (dd (K - 1)%nat) x); [reflexivity|]. destruct H as [H|[H|H]]; [lia|lra|lra].
  Qed.

  Lemma ml_linear x : dd k < x <= dd (K - 1)%nat ->
    exists i p, (k <= i)%nat /\ (Datatypes.S i < K)%nat /\ dd i < x <= dd (Datatypes.S i)
      /\ mixed_layer_1 f linear_interp_1 (Fin x) ref b S T P = Ok (Fin p)
      /\ between ps dd i x p /\ ps i < p <= ps (Datatypes.S i).
  Proof.
    intros Hx. destruct excess_array as (DD & E & L & HDD & Hnan). rewrite E.
    pose proof (cast_blk _ _ _ _ _ _ _ _ HC) as BK. pose proof (blk_kK _ _ _ _ _ _ BK) as HkK. pose proof (blk_K _ _ _ _ _ _ BK) as HK.
    destruct (Nat.eq_dec (K - 1) k) as [Ek|Ek]; [rewrite Ek in Hx; lra|].
    destruct (searchsorted_edges (slice DD k K) (Fin x)) as (S1 & S2 & S3). set (j := searchsorted (slice DD k K) (Fin x)) in *.
    rewrite length_slice in S1, S3 by lia.
    assert (Hn : forall m, (m < K - k)%nat -> nth m (slice DD k K) nan = Fin (dd (k + m))).
    { intros m Hm. apply nth_error_nth. rewrite nth_error_slice by assumption. apply HDD. lia. }
    assert (Hj0 : (0 < j)%nat).
    { destruct j; [|lia]. specialize (S3 ltac:(lia)). rewrite Hn in S3 by lia. cbn [ltb xr_ltb xrNum] in S3. rewrite Nat.add_0_r in S3.
      revert S3. destruct (Rltb_spec (dd k) x); [discriminate|lra]. }
    specialize (S2 Hj0). rewrite Hn in S2 by lia. cbn [ltb xr_ltb xrNum] in S2. revert S2. destruct (Rltb_spec (dd (k + (j - 1))) x) as [S2|]; [intros _|discriminate].
    assert (Hj1 : (j < K - k)%nat).
    { destruct (Nat.lt_ge_cases j (K - k)) as [|Hge]; [assumption|]. replace (k + (j - 1))%nat with (K - 1)%nat in S2 by lia. lra. }
    specialize (S3 Hj1). rewrite Hn in S3 by lia. cbn [ltb xr_ltb xrNum] in S3. revert S3. destruct (Rltb_spec (dd (k + j)) x) as [|S3]; [discriminate|intros _].
    exists (k + (j - 1))%nat, (ps (k + (j - 1))%nat + (x - dd (k + (j - 1))) * ((ps (k + j)%nat - ps (k + (j - 1))%nat) / (dd (k + j) - dd (k + (j - 1))))).
    replace (Datatypes.S (k + (j - 1))) with (k + j)%nat by lia.
    assert (HX : forall i, (k <= i < K)%nat -> get P i = Ok (Fin (ps i))) by (intros; apply get_ok; apply (blk_X _ _ _ _ _ _ BK); assumption).
    pose proof (blk_inc _ _ _ _ _ _ BK (k + (j - 1))%nat ltac:(lia) ltac:(lia)) as Hinc. replace (Datatypes.S (k + (j - 1))) with (k + j)%nat in Hinc by lia.
    set (d0 := dd (k + (j - 1))) in *. set (d1 := dd (k + j)) in *. set (p0 := ps (k + (j - 1))%nat) in *. set (p1 := ps (k + j)%nat) in *.
    split; [lia|]. split; [lia|]. split; [lra|]. split; [|split].
    - unfold linear_interp_1, ppinterp_1, locate. destruct (excess_range DD L HDD Hnan) as [-> _]. cbn [bind].
      destruct (Nat.leb_spec (K - 1) k) as [H'|H']; [lia|]. cbn [orb isnan xr_isnan xrNum].
      rewrite (get_ok _ _ _ (HDD k ltac:(lia))), (get_ok _ _ _ (HDD (K - 1)%nat ltac:(lia))). cbn [bind ltb xr_ltb xrNum].
      rewrite !Rltb_false by lra. fold j. replace (Nat.max k (j + k - 1)) with (k + (j - 1))%nat by lia. cbn [bind].
      unfold linear_coeffs_i. replace (k + (j - 1) + 1)%nat with (k + j)%nat by lia. rewrite !HX by lia.
      rewrite (get_ok _ _ _ (HDD (k + (j - 1))%nat ltac:(lia))), (get_ok _ _ _ (HDD (k + j)%nat ltac:(lia))). fold d0 d1 p0 p1.
      cbn [bind sub xrNum]. unfold xr_sub. cbn [xr_opp xr_add]. rewrite sdiv_fin by lra.
      cbn [bind sub xrNum]. unfold xr_sub. cbn [xr_opp xr_add].
      change [Fin ((p1 - p0) / (d1 - d0)); Fin p0] with (map Fin [(p1 - p0) / (d1 - d0); p0]).
      rewrite pval_fin. unfold pval. simpl. unfold Rlit. simpl. do 2 f_equal. ring.
    - unfold between. replace (Datatypes.S (k + (j - 1))) with (k + j)%nat by lia. fold d0 d1 p0 p1. field. lra.
    - assert (Hq : 0 < (x - d0) / (d1 - d0) <= 1).
      { split; [apply Rdiv_lt_0_compat; lra|]. apply (Rmult_le_reg_r (d1 - d0)); [lra|]. unfold Rdiv. rewrite Rmult_assoc, Rinv_l by lra. lra. }
      replace ((x - d0) * ((p1 - p0) / (d1 - d0))) with ((x - d0) / (d1 - d0) * (p1 - p0)) by (field; lra). nra.
  Qed.

  (** stable profile, both interpolants *)
  Lemma ml_sorted (lin : bool) : (k + 1 < K)%nat ->
    (forall i, (k <= i)%nat -> (Datatypes.S i < K)%nat -> sig i < sig (Datatypes.S i)) ->
    exists g : R -> R,
      (forall x, dd k <= x <= dd (K - 1)%nat ->
         mixed_layer_1 f (if lin then linear_interp_1 else pchip_interp_1) (Fin x) ref b S T P = Ok (Fin (g x)))
      /\ (forall x, continuity_pt g x)
      /\ (forall i, (k <= i < K)%nat -> g (dd i) = ps i)
      /\ (forall x y, dd k <= x -> x <= y -> y <= dd (K - 1)%nat -> g x <= g y)
      /\ (forall x, 0 <= x <= dd (K - 1)%nat -> ps B <= g x <= ps (K - 1)%nat).
  Proof.
    intros HkK Hs. destruct excess_array as (DD & E & L & HDD & Hnan).
    pose proof (cast_blk _ _ _ _ _ _ _ _ HC) as BK.
    assert (Hinc : forall i, (k <= i)%nat -> (Datatypes.S i < K)%nat -> dd i < dd (Datatypes.S i)).
    { intros i H1 H2. specialize (Hs i H1 H2). unfold excess. lra. }
    pose proof (proj2 (excess_range DD L HDD Hnan) Hinc) as BD.
    assert (Hd0 : dd B = 0) by (unfold excess; lra).
    assert (Hps : forall i m, (k <= i)%nat -> (i + m < K)%nat -> ps i <= ps (i + m)%nat).
    { intros i m Hi. induction m as [|m IH]; intros Hm; [rewrite Nat.add_0_r; lra|].
      specialize (IH ltac:(lia)). pose proof (blk_inc _ _ _ _ _ _ BK (i + m)%nat ltac:(lia) ltac:(lia)).
      replace (i + Datatypes.S m)%nat with (Datatypes.S (i + m)) by lia. lra. }
    assert (Hdd : forall i m, (k <= i)%nat -> (i + m < K)%nat -> dd i <= dd (i + m)%nat).
    { intros i m Hi. induction m as [|m IH]; intros Hm; [rewrite Nat.add_0_r; lra|].
      specialize (IH ltac:(lia)). pose proof (Hinc (i + m)%nat ltac:(lia) ltac:(lia)).
      replace (i + Datatypes.S m)%nat with (Datatypes.S (i + m)) by lia. lra. }
    assert (G : exists g : R -> R,
      (forall x, dd k <= x <= dd (K - 1)%nat -> (if lin then linear_interp_1 else pchip_interp_1) (Fin x) DD P 0%nat = Ok (Fin (g x)))
      /\ (forall x, continuity_pt g x)
      /\ (forall i, (k <= i < K)%nat -> g (dd i) = ps i)
      /\ (forall i x y, (k <= i)%nat -> (Datatypes.S i < K)%nat -> dd i <= x -> x <= y -> y <= dd (Datatypes.S i) ->
           ps i <= g x <= ps (Datatypes.S i) /\ g x <= g y)).
    { destruct lin.
      - destruct (linear_final _ _ _ _ _ _ BD HkK) as (g & G1 & G2 & G3 & G4). exists g. split; [exact G1|]. split; [exact G3|]. split; [exact G2|].
        intros i x y Hi1 Hi2 Hx Hxy Hy.
        pose proof (blk_inc _ _ _ _ _ _ BK i Hi1 Hi2) as Hp. pose proof (Hinc i Hi1 Hi2) as Hd.
        assert (Hlin : forall z, dd i <= z <= dd (Datatypes.S i) -> g z = ps i + (z - dd i) * ((ps (Datatypes.S i) - ps i) / (dd (Datatypes.S i) - dd i))).
        { intros z Hz. destruct (Req_dec z (dd i)) as [-> |Hne].
          - rewrite G2 by lia. ring.
          - apply (proj1 (G4 z i ltac:(unfold in_piece; repeat split; try lia; try lra; right; lra))). }
        rewrite !Hlin by lra. assert (Hq : 0 < (ps (Datatypes.S i) - ps i) / (dd (Datatypes.S i) - dd i)) by (apply Rdiv_lt_0_compat; lra).
        set (q := (ps (Datatypes.S i) - ps i) / (dd (Datatypes.S i) - dd i)) in *.
        assert (Hq' : ps (Datatypes.S i) = ps i + (dd (Datatypes.S i) - dd i) * q) by (unfold q; field; lra).
        rewrite Hq'. split; [split|]; nra.
      - destruct (pchip_final _ _ _ _ _ _ BD HkK) as (g & g' & G1 & G2 & _ & G4 & _ & G6). exists g. split; [intros x Hx; apply G1; exact Hx|].
        split; [intros x; apply derivable_continuous_pt; exists (g' x); apply G2|]. split; [exact G4|].
        intros i x y Hi1 Hi2 Hx Hxy Hy. pose proof (blk_inc _ _ _ _ _ _ BK i Hi1 Hi2) as Hp.
        destruct (G6 i x y Hi1 Hi2 Hx Hxy Hy) as [Hr Hm]. rewrite Rmin_left, Rmax_right in Hr by lra. split; [exact Hr|].
        assert (0 <= g y - g x); [|lra]. apply (Rmult_le_reg_l (ps (Datatypes.S i) - ps i)); lra. }
    destruct G as (g & G1 & G2 & G3 & G4). exists g.
    assert (Hpiece : forall x, dd k <= x <= dd (K - 1)%nat -> exists i, (k <= i)%nat /\ (Datatypes.S i < K)%nat /\ dd i <= x <= dd (Datatypes.S i)).
    { intros x Hx. destruct (in_piece_exists _ _ _ _ _ _ BD x) as (i & I1 & I2 & I3 & _); [lia|lra|]. exists i. auto. }
    assert (Hmono : forall x y, dd k <= x -> x <= y -> y <= dd (K - 1)%nat -> g x <= g y).
    { intros x y Hx Hxy Hy. destruct (Hpiece x ltac:(lra)) as (i & I1 & I2 & I3). destruct (Hpiece y ltac:(lra)) as (j & J1 & J2 & J3).
      destruct (Nat.lt_trichotomy i j) as [Hij|[<-|Hij]].
      - pose proof (proj1 (G4 i x x I1 I2 ltac:(lra) ltac:(lra) ltac:(lra))). pose proof (proj1 (G4 j y y J1 J2 ltac:(lra) ltac:(lra) ltac:(lra))).
        pose proof (Hps (Datatypes.S i) (j - Datatypes.S i)%nat ltac:(lia) ltac:(lia)) as Hq. replace (Datatypes.S i + (j - Datatypes.S i))%nat with j in Hq by lia. lra.
      - apply (G4 i x y I1 I2); lra.
      - pose proof (Hdd (Datatypes.S j) (i - Datatypes.S j)%nat ltac:(lia) ltac:(lia)) as Hq. replace (Datatypes.S j + (i - Datatypes.S j))%nat with i in Hq by lia.
        assert (x = y) by lra. subst. lra. }
    split; [intros x Hx; rewrite E; apply G1; exact Hx|]. split; [exact G2|]. split; [exact G3|]. split; [exact Hmono|].
    intros x Hx. pose proof (Hdd k (B - k)%nat ltac:(lia) ltac:(lia)) as Hq. replace (k + (B - k))%nat with B in Hq by lia.
    split; [rewrite <- (G3 B) by lia; rewrite Hd0; apply Hmono; lra|]. rewrite <- (G3 (K - 1)%nat) by lia. apply Hmono; lra.
  Qed.
End Column.
