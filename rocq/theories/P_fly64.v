(** * On-the-fly interpolation in binary64 *)
From Coq Require Import String ZArith Bool Reals Lra Lia List SpecFloat.
From Flocq Require Import Core.
From Verif Require Import Num XR SF Res Arr ArrLemmas XRlemmas M_numpy M_ppinterp M_make_pp M_surfaces P_numpy P_ppinterp P_coeffs NumLaws
  S_lib S_eos S_float S_interp S_domain S_traj S_vertsolve S_omega S_vert64 P_vertsolve P_float P_fl P_holds P_interp2 P_traj P_linear64 P_pchip64d P_vert64 P_traj64 S_omega64.
Import ListNotations.
Local Open Scope nat_scope.

Section Generic.
  Context {F : Type} {N : Num F}.

  Lemma locate_slice (x : F) X Y k K : valid_range_1_two X Y = Ok (k, K) -> k + 1 < K -> K <= length X ->
    locate x X Y = let! o := locate_nonan x (slice X k K) in Ok (option_map (Nat.add k) o).
  Proof.
    intros E H1 H2. unfold locate, locate_nonan. rewrite E. cbn [bind].
    destruct (Nat.leb_spec (K - 1) k); [lia|]. cbn [orb]. destruct (isnan x); [reflexivity|].
    rewrite length_slice by lia.
    rewrite !(get_nth X _ nan), !(get_nth (slice X k K) _ nan) by (rewrite ?length_slice by lia; lia).
    assert (G : forall j, j < K - k -> nth j (slice X k K) nan = nth (k + j) X nan).
    { intros j Hj. apply nth_error_nth. rewrite nth_error_slice by lia. apply nth_error_nth'. lia. }
    rewrite !G by lia. replace (k + 0) with k by lia. replace (k + (K - k - 1)) with (K - 1) by lia. cbn [bind].
    destruct (ltb x (nth k X nan)); [reflexivity|]. destruct (ltb (nth (K - 1) X nan) x); [reflexivity|].
    cbn [bind option_map]. do 2 f_equal. lia.
  Qed.

  Lemma fly_two f (x : F) X Y Z k K Cy Cz : valid_range_1_two X Y = Ok (k, K) -> k + 1 < K -> K <= length X ->
    (forall i, k <= i -> i + 1 < K -> exists c, nth_error Cy (i - k) = Some c /\ f X Y i = Ok c) ->
    (forall i, k <= i -> i + 1 < K -> exists c, nth_error Cz (i - k) = Some c /\ f X Z i = Ok c) ->
    ppinterp_1_two f x X Y Z 0 = ppval_1_nonan_two x (slice X k K) Cy Cz 0.
  Proof.
    intros E H1 H2 HY HZ. unfold ppinterp_1_two, ppval_1_nonan_two. pose proof (locate_slice x X Y k K E H1 H2) as EL.
    destruct (locate_nonan x (slice X k K)) as [[i|]|er]; cbn [bind option_map] in EL; rewrite EL; cbn [bind]; try reflexivity.
    destruct (locate_bounds x X Y _ EL) as (k' & K' & Ev & B1 & B2 & _). rewrite E in Ev. injection Ev as <- <-.
    destruct (HY (k + i) B1 B2) as (cy & N1 & E1). destruct (HZ (k + i) B1 B2) as (cz & N2 & E2). replace (k + i - k) with i in N1, N2 by lia.
    rewrite E1, E2, (get_ok _ _ _ N1), (get_ok _ _ _ N2). cbn [bind].
    rewrite (get_nth X _ nan), (get_nth (slice X k K) _ nan) by (rewrite ?length_slice by lia; lia). cbn [bind].
    replace (nth i (slice X k K) nan) with (nth (k + i) X nan); [reflexivity|].
    symmetry. apply nth_error_nth. rewrite nth_error_slice by lia. apply nth_error_nth'. lia.
  Qed.

  Lemma nth_slice (l : list F) k K j : K <= length l -> j < K - k -> nth j (slice l k K) nan = nth (k + j) l nan.
  Proof. intros Hl Hj. apply nth_error_nth. rewrite nth_error_slice by lia. apply nth_error_nth'. lia. Qed.
  Section Slices.
    Variables (X Y : list F) (k K : nat).
    Hypothesis (HK : k + 1 < K) (HL : K <= length X) (HE : length X = length Y).
    Lemma hx_slice j : j + 1 < K - k -> hx (slice X k K) j = hx X (k + j).
    Proof. intros Hj. unfold hx. rewrite !nth_slice by lia. replace (k + (j + 1)) with (k + j + 1) by lia. reflexivity. Qed.
    Lemma dl_slice j : j + 1 < K - k -> dl (slice X k K) (slice Y k K) j = dl X Y (k + j).
    Proof. intros Hj. unfold dl. rewrite hx_slice, !nth_slice by lia. replace (k + (j + 1)) with (k + j + 1) by lia. reflexivity. Qed.
    Lemma gslope_slice j : 2 < K - k -> j < K - k -> gslope (slice X k K) (slice Y k K) 0 (K - k) j = gslope X Y k K (k + j).
    Proof.
      intros H2 Hj. unfold gslope. rewrite !hx_slice, !dl_slice by lia.
      replace (Nat.eqb (k + j) k) with (Nat.eqb j 0) by (destruct (Nat.eqb_spec j 0), (Nat.eqb_spec (k + j) k); lia || reflexivity).
      replace (Nat.eqb (k + j) (K - 1)) with (Nat.eqb j (K - k - 1)) by (destruct (Nat.eqb_spec j (K - k - 1)), (Nat.eqb_spec (k + j) (K - 1)); lia || reflexivity).
      destruct (Nat.eqb_spec j 0); [replace (k + 0) with k by lia; replace (k + (0 + 1)) with (k + 1) by lia; reflexivity|].
      replace (k + (K - k - 2)) with (K - 2) by lia. replace (k + (K - k - 3)) with (K - 3) by lia.
      destruct (Nat.eqb_spec j (K - k - 1)); [reflexivity|]. rewrite !hx_slice, !dl_slice by lia. replace (k + (j - 1)) with (k + j - 1) by lia. reflexivity.
    Qed.
    Lemma grow_slice j : 2 < K - k -> j + 1 < K - k -> grow (slice X k K) (slice Y k K) 0 (K - k) j = grow X Y k K (k + j).
    Proof. intros H2 Hj. unfold grow. rewrite !gslope_slice, hx_slice, dl_slice by lia. replace (k + (j + 1)) with (k + j + 1) by lia. reflexivity. Qed.
  End Slices.

  Lemma fly_one f (x : F) X Y k K C : valid_range_1_two X Y = Ok (k, K) -> k + 1 < K -> K <= length X ->
    (forall i, k <= i -> i + 1 < K -> exists c, nth_error C (i - k) = Some c /\ f X Y i = Ok c) ->
    ppinterp_1 f x X Y 0 = ppval_1_nonan x (slice X k K) C 0.
  Proof.
    intros E H1 H2 HY. pose proof (fly_two f x X Y Y k K C C E H1 H2 HY HY) as H. unfold ppinterp_1_two, ppval_1_nonan_two in H. unfold ppinterp_1, ppval_1_nonan.
    destruct (locate x X Y) as [[i|]|], (locate_nonan x (slice X k K)) as [[j|]|]; cbn [bind] in *; try congruence; try reflexivity.
    - destruct (f X Y i) as [c|]; cbn [bind] in *; [|destruct (get (slice X k K) j); cbn [bind] in *; [destruct (get C j); cbn [bind] in *|]; congruence].
      destruct (get X i) as [xi|]; cbn [bind] in *; (destruct (get (slice X k K) j); cbn [bind] in *; [destruct (get C j); cbn [bind] in *|]; congruence).
    - destruct (f X Y i) as [c|]; cbn [bind] in *; [|congruence]. destruct (get X i); cbn [bind] in *; congruence.
    - destruct (f X Y i) as [c|]; cbn [bind] in *; [|congruence]. destruct (get X i); cbn [bind] in *; congruence.
    - destruct (get (slice X k K) j); cbn [bind] in *; [destruct (get C j); cbn [bind] in *|]; congruence.
    - destruct (get (slice X k K) j); cbn [bind] in *; [destruct (get C j); cbn [bind] in *|]; congruence.
  Qed.

  Context {L : NumLaws F}.
  Lemma pchip_row (X Y : list F) k K i c3 c2 c1 : k <= i -> i + 1 < K -> K <= length X -> length X = length Y ->
    (if Nat.eqb i 0 then Ok true else nan_at X Y (i - 1)) = Ok (Nat.eqb i k) ->
    (if Nat.eqb i (length X - 2) then Ok true else nan_at X Y (i + 2)) = Ok (Nat.eqb (i + 2) K) ->
    (forall j, k <= j -> j + 1 < K -> eqb (hx X j) zero = false) ->
    (2 < K - k -> grow X Y k K i = Ok (c3, c2, c1)) -> (K - k = 2 -> c3 = lit 0 0 /\ c2 = lit 0 0 /\ c1 = dl X Y i) ->
    pchip_coeffs_i X Y i = Ok [c3; c2; c1; nth i Y nan].
  Proof.
    intros B1 B2 B3 Hl Es Ee HC Hg3 Hg2. unfold pchip_coeffs_i.
    rewrite Es, Ee. cbn [bind]. rewrite !(get_nth _ _ nan) by lia. cbn [bind].
    fold (hx X i).
    assert (Hd : forall j, k <= j -> j + 1 < K ->
      sdiv (sub (nth (j + 1) Y nan) (nth j Y nan)) (sub (nth (j + 1) X nan) (nth j X nan)) = Ok (dl X Y j)).
    { intros j J1 J2. apply sdiv_ok. apply (HC j J1 J2). }
    assert (Hd' : forall j j', j' = j + 1 -> k <= j -> j + 1 < K ->
      sdiv (sub (nth j' Y nan) (nth j Y nan)) (sub (nth j' X nan) (nth j X nan)) = Ok (dl X Y j)).
    { intros j j' -> J1 J2. apply Hd; assumption. }
    unfold hx in *.
    destruct (Nat.eqb_spec i k) as [Hk|Hk]; destruct (Nat.eqb_spec (i + 2) K) as [HK|HK]; cbn [andb].
    - rewrite Hd by lia. cbn [bind]. destruct (Hg2 ltac:(lia)) as (-> & -> & ->). reflexivity.
    - specialize (Hg3 ltac:(lia)). subst i. unfold grow, gslope in Hg3.
      rewrite Nat.eqb_refl in Hg3.
      destruct (Nat.eqb_spec (k + 1) k); [lia|]. destruct (Nat.eqb_spec (k + 1) (K - 1)); [lia|].
      rewrite !(get_nth _ _ nan) by lia. cbn [bind].
      rewrite (Hd' k (k + 1)), (Hd' (k + 1) (k + 2)) by lia. cbn [bind].
      change (@pchip_i_start F N) with (@pchip_end F N). rewrite pchip_i_mid_comm.
      unfold hx in Hg3. replace (k + 1 + 1) with (k + 2) in Hg3 by lia.
      replace (k + 1 - 1) with k in Hg3 by lia.
      bind_inv Hg3. cbn [bind]. bind_inv Hg3. cbn [bind].
      unfold pchip_piece in Hg3. bind_inv Hg3. cbn [bind]. bind_inv Hg3. cbn [bind].
      bind_inv Hg3. cbn [bind]. injection Hg3 as <- <- <-. reflexivity.
    - specialize (Hg3 ltac:(lia)). unfold grow, gslope in Hg3.
      destruct (Nat.eqb_spec i k); [lia|]. destruct (Nat.eqb_spec i (K - 1)); [lia|].
      destruct (Nat.eqb_spec (i + 1) k); [lia|]. destruct (Nat.eqb_spec (i + 1) (K - 1)); [|lia].
      rewrite !(get_nth _ _ nan) by lia. cbn [bind].
      rewrite (Hd' (i - 1) i), (Hd' i (i + 1)) by lia. cbn [bind].
      rewrite pchip_i_end_comm, pchip_i_mid_comm.
      replace (K - 2) with i in Hg3 by lia. replace (K - 3) with (i - 1) in Hg3 by lia.
      unfold hx in Hg3. replace (i - 1 + 1) with i in Hg3 by lia.
      bind_inv Hg3. cbn [bind]. bind_inv Hg3. cbn [bind].
      unfold pchip_piece in Hg3. bind_inv Hg3. cbn [bind]. bind_inv Hg3. cbn [bind].
      bind_inv Hg3. cbn [bind]. injection Hg3 as <- <- <-. reflexivity.
    - specialize (Hg3 ltac:(lia)). unfold grow, gslope in Hg3.
      destruct (Nat.eqb_spec i k); [lia|]. destruct (Nat.eqb_spec i (K - 1)); [lia|].
      destruct (Nat.eqb_spec (i + 1) k); [lia|]. destruct (Nat.eqb_spec (i + 1) (K - 1)); [lia|].
      rewrite !(get_nth _ _ nan) by lia. cbn [bind].
      rewrite (Hd' (i - 1) i), (Hd' i (i + 1)), (Hd' (i + 1) (i + 2)) by lia. cbn [bind].
      rewrite !pchip_i_mid_comm.
      unfold hx in Hg3. replace (i - 1 + 1) with i in Hg3 by lia.
      replace (i + 1 - 1) with i in Hg3 by lia. replace (i + 1 + 1) with (i + 2) in Hg3 by lia.
      bind_inv Hg3. cbn [bind]. bind_inv Hg3. cbn [bind].
      unfold pchip_piece in Hg3. bind_inv Hg3. cbn [bind]. bind_inv Hg3. cbn [bind].
      bind_inv Hg3. cbn [bind]. injection Hg3 as <- <- <-. reflexivity.
  Qed.
End Generic.

Local Open Scope R_scope.
Lemma apart_nz (x y : f64) : finite64 x -> finite64 y -> powerRZ 2 (-900) <= fval y - fval x <= powerRZ 2 900 -> eqb (sub y x : f64) zero = false.
Proof.
  intros Fx Fy H. change (eqb (sub y x : f64) zero) with (SFeqb (sf_sub y x) (S754_zero false)).
  destruct (sf_sub_near y x Fy Fx) as [F V].
  { rewrite Rabs_pos_eq by (pose proof (pow2_pos (-900)); lra). apply Rle_trans with (powerRZ 2 900); [apply H|unfold big64; apply pow2_le; lia]. }
  apply sf_eqb_zero; [exact F|]. rewrite (Rabs_pos_eq (fval y - fval x)) in V by (pose proof (pow2_pos (-900)); lra). apply abs_le_of in V.
  assert (E : eta64 <= / 1000 * powerRZ 2 (-900)).
  { unfold eta64. replace (-1075)%Z with (-175 + -900)%Z by lia. rewrite <- pow2_mul. apply Rmult_le_compat_r; [left; apply pow2_pos|]. 
    apply Rle_trans with (powerRZ 2 (-10)); [apply pow2_le; lia|simpl; lra]. }
  assert (U : u64 = / 9007199254740992) by reflexivity. pose proof (pow2_pos (-900)). rewrite U in V. change (fval (sf_sub y x) <> 0). lra.
Qed.

Lemma holds_regular X X' : holds_all X X' -> regular X.
Proof.
  intros H i Hi. pose proof (holds_nth X X' i H) as Hn. destruct (nth i X' nan) as [r| | |]; cbn [holds] in Hn; [|destruct Hn|destruct Hn|].
  - change (isfinite (nth i X nan)) with (sf_isfinite (nth i X nan)). change (isnan (nth i X nan)) with (sf_isnan (nth i X nan)).
    rewrite (finite_isfinite _ (proj1 Hn)), (finite_isnan _ (proj1 Hn)). reflexivity.
  - rewrite Hn. reflexivity.
Qed.

(** f gives the coefficients of ppc one by one *)
Definition one_by_one (ppc : list f64 -> list f64 -> res (list (list f64))) (f : list f64 -> list f64 -> nat -> res (list f64)) (w w' : R) : Prop :=
  forall X Y X' Y' k K xs ys C, holds_all X X' -> holds_all Y Y' -> block X' Y' k K xs ys -> (k + 1 < K)%nat -> steps k K xs w w' ->
    ppc (slice X k K) (slice Y k K) = Ok C ->
    forall i, (k <= i)%nat -> (i + 1 < K)%nat -> exists c, nth_error C (i - k) = Some c /\ f X Y i = Ok c.

Section Rows.
  Variables (X Y : list f64) (X' Y' : list xr) (k K : nat) (xs ys : nat -> R).
  Hypothesis (HX : holds_all X X') (HY : holds_all Y Y') (HB : block X' Y' k K xs ys) (HK : (k + 1 < K)%nat).
  Hypothesis Hst : steps k K xs (powerRZ 2 (-900)) (powerRZ 2 900).
  Lemma rows_len : length X = length Y /\ (K <= length X)%nat.
  Proof.
    pose proof (blk_len _ _ _ _ _ _ HB). pose proof (blk_K _ _ _ _ _ _ HB). rewrite (holds_length _ _ HX), (holds_length _ _ HY). split; [assumption|lia].
  Qed.
  Lemma rows_nz j : (k <= j)%nat -> (j + 1 < K)%nat -> eqb (hx X j) (zero : f64) = false.
  Proof.
    intros J1 J2. destruct (holds_get X X' j _ HX (blk_X _ _ _ _ _ _ HB j ltac:(lia))) as (a & Ea & Fa & Va).
    destruct (holds_get X X' (j + 1) _ HX (blk_X _ _ _ _ _ _ HB (j + 1)%nat ltac:(lia))) as (b & Eb & Fb & Vb).
    unfold hx. rewrite (nth_error_nth _ _ nan Ea), (nth_error_nth _ _ nan Eb). apply apart_nz; [exact Fa|exact Fb|].
    rewrite Va, Vb. replace (j + 1)%nat with (S j) by lia. apply Hst; lia.
  Qed.
  Lemma rows_nan j : (j < length X)%nat -> nan_at X Y j = Ok (isnan (nth j X nan) || isnan (nth j Y nan)).
  Proof. intros Hj. apply nan_at_spec; [exact (holds_regular _ _ HX)|exact (holds_regular _ _ HY)|apply rows_len|exact Hj]. Qed.
  Lemma rows_in j : (k <= j < K)%nat -> isnan (nth j X nan) || isnan (nth j Y nan) = false.
  Proof.
    intros Hj. destruct (holds_get X X' j _ HX (blk_X _ _ _ _ _ _ HB j Hj)) as (a & Ea & Fa & _).
    destruct (holds_get Y Y' j _ HY (blk_Y _ _ _ _ _ _ HB j Hj)) as (b & Eb & Fb & _).
    rewrite (nth_error_nth _ _ nan Ea), (nth_error_nth _ _ nan Eb). 
    change (sf_isnan a || sf_isnan b = false). rewrite (finite_isnan _ Fa), (finite_isnan _ Fb). reflexivity.
  Qed.
  Lemma rows_out j : nth_error X' j = Some NaN \/ nth_error Y' j = Some NaN -> isnan (nth j X nan) || isnan (nth j Y nan) = true.
  Proof.
    intros [E|E].
    - destruct (holds_get X X' j _ HX E) as (a & Ea & Ha). rewrite (nth_error_nth _ _ nan Ea). cbn [holds] in Ha. rewrite Ha. reflexivity.
    - destruct (holds_get Y Y' j _ HY E) as (a & Ea & Ha). rewrite (nth_error_nth _ _ nan Ea). cbn [holds] in Ha. rewrite Ha. apply orb_true_r.
  Qed.
  Lemma rows_start i : (k <= i)%nat -> (i + 1 < K)%nat -> (if Nat.eqb i 0 then Ok true else nan_at X Y (i - 1)) = Ok (Nat.eqb i k).
  Proof.
    intros H1 H2. destruct rows_len as [_ Hl]. destruct (Nat.eqb_spec i 0) as [->|Hi].
    - destruct (Nat.eqb_spec 0 k); [reflexivity|lia].
    - rewrite rows_nan by lia. destruct (Nat.eqb_spec i k) as [->|Hk]; [rewrite rows_out; [reflexivity|apply (blk_pre _ _ _ _ _ _ HB); lia]|rewrite rows_in by lia; reflexivity].
  Qed.
  Lemma rows_end i : (k <= i)%nat -> (i + 1 < K)%nat -> (if Nat.eqb i (length X - 2) then Ok true else nan_at X Y (i + 2)) = Ok (Nat.eqb (i + 2) K).
  Proof.
    intros H1 H2. destruct rows_len as [_ Hl]. destruct (Nat.eqb_spec i (length X - 2)) as [->|Hi].
    - destruct (Nat.eqb_spec (length X - 2 + 2) K); [reflexivity|lia].
    - rewrite rows_nan by lia. destruct (Nat.eqb_spec (i + 2) K) as [E|Hk]; [|rewrite rows_in by lia; reflexivity].
      rewrite E. rewrite rows_out; [reflexivity|]. apply (blk_post _ _ _ _ _ _ HB). pose proof (holds_length _ _ HX). lia.
  Qed.
End Rows.

Lemma linear_one_by_one junk : one_by_one (linear_coeffs_1 junk) linear_coeffs_i (powerRZ 2 (-900)) (powerRZ 2 900).
Proof.
  intros X Y X' Y' k K xs ys C HX HY HB HK Hst EC i H1 H2. destruct (rows_len X Y X' Y' k K xs ys HX HY HB HK) as [Hl HKl].
  assert (Ls : length (slice X k K) = (K - k)%nat) by (apply length_slice; lia). assert (Lt : length (slice Y k K) = (K - k)%nat) by (apply length_slice; lia).
  destruct (linear_coeffs_1_spec junk (slice X k K) (slice Y k K)) as (C' & EC' & _ & HC); [intros E; rewrite E in Ls; cbn [length] in Ls; lia|congruence|].
  rewrite EC in EC'. injection EC' as <-. eexists. split; [apply HC; lia|]. rewrite !nth_slice by lia.
  replace (k + (i - k + 1))%nat with (i + 1)%nat by lia. replace (k + (i - k))%nat with i by lia.
  unfold linear_coeffs_i. rewrite !(get_nth _ _ nan) by lia. cbn [bind].
  pose proof (rows_nz X X' Y' k K xs ys HX HB HK Hst i H1 H2) as Nz. unfold hx in Nz. rewrite P_coeffs.sdiv_ok by exact Nz. reflexivity.
Qed.
Lemma pchip_one_by_one junk : one_by_one (pchip_coeffs_1_nonan junk) pchip_coeffs_i (powerRZ 2 (-900)) (powerRZ 2 900).
Proof.
  intros X Y X' Y' k K xs ys C HX HY HB HK Hst EC i H1 H2. destruct (rows_len X Y X' Y' k K xs ys HX HY HB HK) as [Hl HKl].
  assert (Ls : length (slice X k K) = (K - k)%nat) by (apply length_slice; lia). assert (Lt : length (slice Y k K) = (K - k)%nat) by (apply length_slice; lia).
  unfold pchip_coeffs_1_nonan in EC. rewrite Ls in EC.
  destruct (pchip_coeffs_kK_inv (slice X k K) (slice Y k K) junk 0 (K - k) C ltac:(congruence) ltac:(lia) EC) as (_ & _ & Hc).
  destruct (Hc (i - k)%nat ltac:(lia) ltac:(lia)) as (_ & c3 & c2 & c1 & Nc & Hg3 & Hg2). eexists. split; [exact Nc|].
  rewrite nth_slice by lia. replace (k + (i - k))%nat with i by lia.
  apply (pchip_row X Y k K); try assumption.
  - exact (rows_start X Y X' Y' k K xs ys HX HY HB HK i H1 H2).
  - exact (rows_end X Y X' Y' k K xs ys HX HY HB HK i H1 H2).
  - exact (rows_nz X X' Y' k K xs ys HX HB HK Hst).
  - intros H3. rewrite (grow_slice X Y k K HK HKl Hl (i - k) H3 ltac:(lia)) in Hg3. replace (k + (i - k))%nat with i in Hg3 by lia. apply Hg3. lia.
  - intros H3. rewrite (dl_slice X Y k K HK HKl Hl) in Hg2 by lia. replace (k + (i - k))%nat with i in Hg2 by lia. apply Hg2. lia.
Qed.

(** ** outside of the range *)
Lemma ltb_inf (A : f64) : finite64 A -> ltb (S754_infinity true : f64) A = true /\ ltb A (S754_infinity false : f64) = true.
Proof. intros F. destruct A as [s|s| |s m e]; [split; destruct s; reflexivity|destruct F|destruct F|split; destruct s; reflexivity]. Qed.
Lemma locate_out (x : f64) X (A B : f64) : get X 0 = Ok A -> get X (length X - 1) = Ok B -> finite64 A -> finite64 B -> float64 x ->
  ~ inside64 x (fval A) (fval B) -> fval A <= fval B -> locate_nonan x X = Ok None.
Proof.
  intros GA GB FA FB Hx Ho AB. unfold locate_nonan. destruct Hx as [Fx|Hx].
  - change (isnan x) with (sf_isnan x). rewrite (finite_isnan _ Fx), GA, GB. cbn [bind].
    change (ltb x A) with (SFltb x A). change (ltb B x) with (SFltb B x). rewrite !ltb_val by assumption.
    destruct (Rlt_bool_spec (fval x) (fval A)); [reflexivity|]. destruct (Rlt_bool_spec (fval B) (fval x)); [reflexivity|].
    exfalso. apply Ho. split; [exact Fx|lra].
  - destruct x as [s|s| |s m e]; try discriminate Hx.
    + change (isnan (S754_infinity s : f64)) with false. rewrite GA, GB. cbn [bind]. destruct s.
      * rewrite (proj1 (ltb_inf A FA)). reflexivity.
      * destruct (ltb (S754_infinity false : f64) A); [reflexivity|]. rewrite (proj2 (ltb_inf B FB)). reflexivity.
    + reflexivity.
Qed.

Section Bounds.
  Variables (ppc : list f64 -> list f64 -> res (list (list f64))) (f : list f64 -> list f64 -> nat -> res (list f64)).
  Variable rel : nat -> (nat -> R) -> (nat -> R) -> (R -> R) -> Prop.
  Variables (w w' M e : R).
  Hypothesis Hf : one_by_one ppc f w w'.
  Hypothesis Hppc : interpolator64 ppc rel w w' M e.

  Lemma interpolates_fly : interpolates64 (fun x X Y => ppinterp_1 f x X Y 0) rel w w' M e.
  Proof.
    intros X Y X' Y' k K xs ys HX HY HB HK Hst HM.
    pose proof (blk_len _ _ _ _ _ _ HB) as Hl. pose proof (blk_K _ _ _ _ _ _ HB) as HKl.
    assert (B1 : block (slice X' k K) (slice Y' k K) 0 (length (slice X' k K)) (from k xs) (from k ys)).
    { apply (block_slice X' Y' Y' k K xs ys ys HB); [lia|]. apply (blk_Y _ _ _ _ _ _ HB). }
    assert (Hls : length (slice X' k K) = (K - k)%nat) by (apply length_slice; lia).
    assert (HXs := holds_slice X X' k K HX). assert (HYs := holds_slice Y Y' k K HY).
    destruct (Hppc _ _ _ _ _ _ HXs HYs B1) as (C & g & EC & Hrel & Hcont & Hw & Hg).
    { lia. }
    { intros i Hi. unfold from. replace (k + S i)%nat with (S (k + i)) by lia. apply Hst; lia. }
    { intros i Hi. unfold from. apply HM. lia. }
    assert (E0 : from k xs 0 = xs k) by (unfold from; f_equal; lia).
    assert (E1 : from k xs (length (slice X' k K) - 1) = xs (K - 1)%nat) by (unfold from; f_equal; lia).
    rewrite Hls in Hrel, Hw. exists g. split; [exact Hrel|]. split; [exact Hcont|]. split; [exact Hw|].
    intros x Hx.
    assert (Ev : valid_range_1_two X Y = Ok (k, K)).
    { rewrite (holds_valid_range_two X X' Y Y' HX HY). exact (block_valid_range _ _ _ _ _ _ HB). }
    assert (HKX : (K <= length X)%nat) by (rewrite (holds_length _ _ HX); lia).
    rewrite (fly_one f x X Y k K C Ev HK HKX (Hf _ _ _ _ _ _ _ _ _ HX HY HB HK Hst EC)). split.
    - intros [Fx Ix]. apply Hg; [exact Fx|]. rewrite E0, E1. exact Ix.
    - intros Ho. unfold ppval_1_nonan.
      assert (GA : exists A : f64, get (slice X k K) 0 = Ok A /\ finite64 A /\ fval A = xs k).
      { destruct (holds_get X X' k _ HX (blk_X _ _ _ _ _ _ HB k ltac:(lia))) as (A & EA & FA & VA). exists A. split; [|auto].
        apply get_ok. rewrite nth_error_slice by lia. rewrite Nat.add_0_r. exact EA. }
      assert (GB : exists B : f64, get (slice X k K) (length (slice X k K) - 1) = Ok B /\ finite64 B /\ fval B = xs (K - 1)%nat).
      { destruct (holds_get X X' (K - 1) _ HX (blk_X _ _ _ _ _ _ HB (K - 1)%nat ltac:(lia))) as (B & EB & FB & VB). exists B. split; [|auto].
        apply get_ok. rewrite length_slice by lia. rewrite nth_error_slice by lia. replace (k + (K - k - 1))%nat with (K - 1)%nat by lia. exact EB. }
      destruct GA as (A & GA & FA & VA). destruct GB as (B & GB & FB & VB).
      rewrite (locate_out x (slice X k K) A B GA GB FA FB Hx).
      + reflexivity.
      + rewrite VA, VB. exact Ho.
      + rewrite VA, VB. apply (blk_mono_le _ _ _ _ _ _ HB); lia.
  Qed.
End Bounds.

Section Column.
  Variables (ppc : list f64 -> list f64 -> res (list (list f64))) (f : list f64 -> list f64 -> nat -> res (list f64)).
  Variable rel : nat -> (nat -> R) -> (nat -> R) -> (R -> R) -> Prop.
  Variable e : R.
  Hypothesis Hf : one_by_one ppc f (powerRZ 2 (-900)) (powerRZ 2 900).
  Hypothesis Hppc : interpolator64 ppc rel (powerRZ 2 (-30)) 10000 42 e.

  Lemma short_two p Sc Tc Pc (Sc' Pc' : list xr) : holds_all Sc Sc' -> holds_all Pc Pc' -> short_cast Sc' Pc' -> ppinterp_1_two f p Pc Sc Tc 0 = Ok (nan, nan).
  Proof.
    intros HS HP Hsh. assert (Ev : exists k K, valid_range_1_two Pc Sc = Ok (k, K) /\ (K - 1 <= k)%nat).
    { rewrite (holds_valid_range_two Pc Pc' Sc Sc' HP HS). destruct Hsh as [Hn|(k & ps & ss & HB)].
      - exists (length Pc'), (length Pc'). split; [exact (no_data_range _ _ Hn)|lia].
      - exists k, (k + 1)%nat. split; [exact (block_valid_range _ _ _ _ _ _ HB)|lia]. }
    destruct Ev as (k & K & Ev & HK). unfold ppinterp_1_two, locate. rewrite Ev. cbn [bind]. apply Nat.leb_le in HK. rewrite HK. reflexivity.
  Qed.

  Lemma column_fly : column_interp64 rel e (fun p P S T => ppinterp_1_two f p P S T 0).
  Proof.
    intros s0 pm Sc Tc Pc c' p Hs0 Hpm Hh Hany Hex Hin Hsp Fp. destruct c' as [[Sc' Tc'] Pc']. pose proof Hh as (HS & HT & HP).
    destruct Hany as [Hsh|(k & K & ss & ts & ps & HC & HK)].
    - split; [|intros _; exact (short_two p Sc Tc Pc Sc' Pc' HS HP Hsh)].
      intros gS gT lo hi [(k & K & ss & ts & ps & HC & HK & _) _ _] _. exfalso. cbn [fst snd] in HC.
      destruct (short_cast_range Sc' Pc' Hsh) as (k2 & K2 & E & H2 & _). rewrite (cast_range _ _ _ _ _ _ _ _ HC) in E. injection E as <- <-. lia.
    - destruct (cast_interpolants64 ppc rel s0 pm e Hpm Hs0 Hppc Sc Tc Pc Sc' Tc' Pc' k K ss ts ps HS HT HP HC HK Hin Hsp)
        as (Sppc & Tppc & gS & gT & A & B & E1 & E2 & Hpr & GA & GB & FA & FB & VA & VB & Hval).
      assert (HB := cast_blk _ _ _ _ _ _ _ _ HC). assert (HBT := Hex _ _ _ _ _ HC).
      assert (Ev : valid_range_1_two Pc Sc = Ok (k, K)).
      { rewrite (holds_valid_range_two Pc Pc' Sc Sc' HP HS). exact (block_valid_range _ _ _ _ _ _ HB). }
      assert (HKX : (K <= length Pc)%nat) by (rewrite (holds_length _ _ HP); apply (blk_K _ _ _ _ _ _ HB)).
      assert (Hst : steps k K ps (powerRZ 2 (-900)) (powerRZ 2 900)).
      { intros i H1 H2. pose proof (Hsp _ _ _ _ _ HC i H1 H2) as H. pose proof (Hin _ _ _ _ _ HC) as D. cbn [sea box dS dT dP] in D. unfold upto in D.
        pose proof (D i ltac:(lia)). pose proof (D (S i) ltac:(lia)). split.
        - apply Rle_trans with (powerRZ 2 (-30)); [apply pow2_le; lia|exact H].
        - apply Rle_trans with (powerRZ 2 14); [simpl; lra|apply pow2_le; lia]. }
      rewrite (fly_two f p Pc Sc Tc k K Sppc Tppc Ev HK HKX (Hf _ _ _ _ _ _ _ _ _ HP HS HB HK Hst E1) (Hf _ _ _ _ _ _ _ _ _ HP HT HBT HK Hst E2)). split.
      + intros gS' gT' lo hi Hpr' [Fp' Ip].
        assert (lo = fval A /\ hi = fval B) as [-> ->].
        { destruct Hpr' as [(k2 & K2 & ss2 & ts2 & ps2 & HC2 & _ & _ & _ & _ & _ & -> & ->) _ _]. cbn [fst snd] in HC2.
          pose proof (cast_range _ _ _ _ _ _ _ _ HC2) as E. rewrite (cast_range _ _ _ _ _ _ _ _ HC) in E. injection E as <- <-.
          pose proof (blk_X _ _ _ _ _ _ (cast_blk _ _ _ _ _ _ _ _ HC2)) as G2. pose proof (blk_X _ _ _ _ _ _ HB) as G1.
          pose proof (G1 k ltac:(lia)) as Q1. rewrite (G2 k ltac:(lia)) in Q1. pose proof (G1 (K - 1)%nat ltac:(lia)) as Q2. rewrite (G2 (K - 1)%nat ltac:(lia)) in Q2.
          injection Q1 as Q1. injection Q2 as Q2. rewrite VA, VB. auto. }
        destruct (Hval p Fp' Ip) as (s & t & Es & Ws & Wt). exists s, t, (gS (fval p)), (gT (fval p)). split; [exact Es|].
        exists gS, gT, (fval A), (fval B), s, t, p. split; [exact Hpr|]. split; [reflexivity|]. split; [exact Fp'|]. split; [exact Ip|].
        split; [reflexivity|]. split; [reflexivity|]. split; [exact Ws|exact Wt].
      + intros Ho. unfold ppval_1_nonan_two. rewrite (locate_out p (slice Pc k K) A B GA GB FA FB Fp).
        * reflexivity.
        * exact (Ho gS gT _ _ Hpr).
        * rewrite VA, VB. apply (blk_mono_le _ _ _ _ _ _ HB); lia.
  Qed.
End Column.

(** ** coefficients of whole arrays *)
Section Whole.
  Variables (X Y : list f64) (k K : nat).
  Hypothesis (HXY : length X = length Y) (HK : (k + 1 < K)%nat) (HKl : (K <= length X)%nat).
  Hypothesis Hh : forall i, (k <= i)%nat -> (i + 1 < K)%nat -> eqb (hx X i) zero = false.
  Hypothesis Hs : (2 < K - k)%nat -> forall j, (k <= j < K)%nat -> exists v, gslope X Y k K j = Ok v.
  Let v j : f64 := match gslope X Y k K j with Ok v => v | Err _ => nan end.
  Lemma whole_v j : (2 < K - k)%nat -> (k <= j < K)%nat -> gslope X Y k K j = Ok (v j).
  Proof. intros H2 Hj. unfold v. destruct (Hs H2 j Hj) as (w & ->). reflexivity. Qed.

  Lemma whole_exists junk : exists C, pchip_coeffs_kK junk X Y k K = Ok C.
  Proof.
    unfold pchip_coeffs_kK.
    assert (HneX : X <> []) by (intros E; rewrite E in HKl; simpl in HKl; lia).
    assert (HneY : Y <> []) by (intros E; rewrite E in HXY; simpl in HXY; lia).
    destruct (diff_1d_samesize_spec junk X HneX) as (h & Eh & Lh & _).
    destruct (diff_1d_samesize_spec junk Y HneY) as (dY & EdY & LdY & _).
    rewrite Eh, EdY. cbn [bind]. set (δ := map (fun '(dy, hi) => div dy hi) (combine dY h)) in *.
    assert (G : forall i, (i + 1 < K)%nat -> get h i = Ok (hx X i) /\ get δ i = Ok (dl X Y i)).
    { intros i Hi. destruct (get_diff junk X i ltac:(lia) h Eh) as [G1 _]. destruct (get_diff junk Y i ltac:(lia) dY EdY) as [G2 _].
      split; [exact G1|]. apply get_ok. unfold δ. rewrite nth_error_map, nth_error_combine, (get_inv _ _ _ G1), (get_inv _ _ _ G2). reflexivity. }
    destruct (Nat.ltb_spec 2 (K - k)) as [H2|H2].
    - assert (Es : exists d, pchip_slopes h δ k K = Ok d /\ forall j, (k <= j < K)%nat -> nth_error d j = Some (v j)).
      { unfold pchip_slopes. rewrite !(proj1 (G k ltac:(lia))), !(proj2 (G k ltac:(lia))).
        rewrite !(proj1 (G (k + 1)%nat ltac:(lia))), !(proj2 (G (k + 1)%nat ltac:(lia))). cbn [bind].
        pose proof (whole_v k H2 ltac:(lia)) as V0. unfold gslope in V0. rewrite Nat.eqb_refl in V0. rewrite V0. cbn [bind].
        rewrite set_ok by (rewrite repeat_length; lia). cbn [bind].
        match goal with |- context [for_range ?a ?b ?body ?d] => destruct (for_range_fill body v a b d) as (d1 & E1 & L1 & Hin & Hout) end.
        { lia. } { rewrite length_upd, repeat_length. lia. }
        { intros i e Hi _. rewrite !(proj1 (G i ltac:(lia))), !(proj2 (G i ltac:(lia))), !(proj1 (G (i - 1)%nat ltac:(lia))), !(proj2 (G (i - 1)%nat ltac:(lia))).
          cbn [bind]. pose proof (whole_v i H2 ltac:(lia)) as Vi. unfold gslope in Vi.
          destruct (Nat.eqb_spec i k); [lia|]. destruct (Nat.eqb_spec i (K - 1)); [lia|]. rewrite Vi. reflexivity. }
        rewrite E1. cbn [bind].
        rewrite !(proj1 (G (K - 2)%nat ltac:(lia))), !(proj2 (G (K - 2)%nat ltac:(lia))), !(proj1 (G (K - 3)%nat ltac:(lia))), !(proj2 (G (K - 3)%nat ltac:(lia))).
        cbn [bind]. pose proof (whole_v (K - 1) H2 ltac:(lia)) as Vn. unfold gslope in Vn. destruct (Nat.eqb_spec (K - 1) k); [lia|].
        rewrite Nat.eqb_refl in Vn. rewrite Vn. cbn [bind]. rewrite length_upd, repeat_length in L1. rewrite set_ok by lia.
        eexists. split; [reflexivity|]. intros j Hj. destruct (Nat.eq_dec j (K - 1)) as [->|Nj].
        - apply nth_error_upd_eq. lia.
        - rewrite nth_error_upd_neq by lia. destruct (Nat.eq_dec j k) as [->|N0].
          + rewrite Hout by lia. apply nth_error_upd_eq. rewrite repeat_length. lia.
          + apply Hin. lia. }
      destruct Es as (d & Ed & Hd). rewrite Ed. cbn [bind].
      match goal with |- context [for_range ?a ?b ?body ?d] => destruct (for_range_fill body
        (fun i => match pchip_piece (hx X i) (dl X Y i) (v i) (v (i + 1)%nat) with Ok c => c | Err _ => (nan, nan, nan) end) a b d) as (d1 & E1 & _ & _) end.
      { lia. } { rewrite repeat_length. lia. }
      { intros i e Hi _. rewrite (proj1 (G i ltac:(lia))), (proj2 (G i ltac:(lia))). rewrite (get_ok _ _ _ (Hd i ltac:(lia))), (get_ok _ _ _ (Hd (i + 1)%nat ltac:(lia))).
        cbn [bind]. unfold pchip_piece. do 3 (rewrite ?P_coeffs.sdiv_ok by (apply Hh; lia); cbn [bind]). reflexivity. }
      rewrite E1. cbn [bind]. eexists. reflexivity.
    - assert (K - k = 2)%nat as E2 by lia. rewrite E2. cbn [Nat.eqb].
      rewrite !(get_nth X _ nan), !(get_nth Y _ nan) by lia. cbn [bind].
      pose proof (Hh k ltac:(lia) ltac:(lia)) as H0. unfold hx in H0. rewrite P_coeffs.sdiv_ok by exact H0. cbn [bind].
      rewrite set_ok by (rewrite repeat_length; lia). cbn [bind]. eexists. reflexivity.
  Qed.
End Whole.

Definition wider_steps k K xs a b a' b' (Ha : (a' <= a)%Z) (Hb : (b <= b')%Z) (H : steps k K xs (powerRZ 2 a) (powerRZ 2 b)) : steps k K xs (powerRZ 2 a') (powerRZ 2 b').
Proof. intros i H1 H2. destruct (H i H1 H2) as [A B]. split; [apply Rle_trans with (powerRZ 2 a); [apply pow2_le; lia|exact A]|apply Rle_trans with (powerRZ 2 b); [exact B|apply pow2_le; lia]]. Qed.

Lemma linear_fly64 M : powerRZ 2 (-90) <= M <= powerRZ 2 90 ->
  interpolates64 (fun x X Y => linear_interp_1 x X Y 0) linear_fun (powerRZ 2 (-900)) (powerRZ 2 900) M (powerRZ 2 (-49) * M).
Proof. intros HM. exact (interpolates_fly _ _ _ _ _ _ _ (linear_one_by_one nan) (linear_interpolator64 nan M HM)). Qed.
Lemma pchip_fly64 M : powerRZ 2 (-90) <= M <= powerRZ 2 90 ->
  interpolates64 (fun x X Y => pchip_interp_1 x X Y 0) pchip_fun (powerRZ 2 (-60)) (powerRZ 2 60) M (204 * (powerRZ 2 (-53) * M)).
Proof.
  intros HM. refine (interpolates_fly _ pchip_coeffs_i _ _ _ _ _ _ (pchip_round nan M HM)).
  intros X Y X' Y' k K xs ys C HX HY HB HK Hst. apply (pchip_one_by_one nan X Y X' Y' k K xs ys C HX HY HB HK).
  exact (wider_steps _ _ _ (-60) 60 (-900) 900 ltac:(lia) ltac:(lia) Hst).
Qed.

Lemma linear_table64 (junk : f64) M : powerRZ 2 (-90) <= M <= powerRZ 2 90 ->
  interpolates64 (fun x X Y => let! C := linear_coeffs_1 junk X Y in ppval_1 x X C 0) linear_fun (powerRZ 2 (-900)) (powerRZ 2 900) M (powerRZ 2 (-49) * M).
Proof.
  intros HM X Y X' Y' k K xs ys HX HY HB HK Hst Hys. destruct (linear_fly64 M HM X Y X' Y' k K xs ys HX HY HB HK Hst Hys) as (g & A & B & D & E).
  exists g. split; [exact A|]. split; [exact B|]. split; [exact D|]. intros x Fx.
  destruct (rows_len X Y X' Y' k K xs ys HX HY HB HK) as [Hl HKl].
  destruct (linear_same junk X Y x 0) as (C & EC & Es).
  - intros ->. simpl in HKl. lia.
  - exact Hl.
  - intros k' K' i Ev. rewrite (holds_valid_range_two X X' Y Y' HX HY), (block_valid_range _ _ _ _ _ _ HB) in Ev. assert (k' = k /\ K' = K) as [-> ->] by (split; congruence).
    exact (rows_nz X X' Y' k K xs ys HX HB HK Hst i).
  - rewrite EC. cbn [bind]. rewrite <- Es. exact (E x Fx).
Qed.
Lemma pchip_table64 (junk : f64) M : powerRZ 2 (-90) <= M <= powerRZ 2 90 ->
  interpolates64 (fun x X Y => let! C := pchip_coeffs_1 junk X Y in ppval_1 x X C 0) pchip_fun (powerRZ 2 (-60)) (powerRZ 2 60) M (204 * (powerRZ 2 (-53) * M)).
Proof.
  intros HM X Y X' Y' k K xs ys HX HY HB HK Hst Hys. destruct (pchip_fly64 M HM X Y X' Y' k K xs ys HX HY HB HK Hst Hys) as (g & A & B & D & E).
  exists g. split; [exact A|]. split; [exact B|]. split; [exact D|]. intros x Fx.
  destruct (rows_len X Y X' Y' k K xs ys HX HY HB HK) as [Hl HKl].
  assert (Hl' := blk_len _ _ _ _ _ _ HB). assert (LX := holds_length _ _ HX).
  assert (HC : exists C, pchip_coeffs_1 junk X Y = Ok C).
  { unfold pchip_coeffs_1. rewrite (holds_valid_range_two X X' Y Y' HX HY), (block_valid_range _ _ _ _ _ _ HB). cbn [bind].
    apply whole_exists; [exact Hl|exact HK|exact HKl|exact (rows_nz X X' Y' k K xs ys HX HB HK (wider_steps _ _ _ (-60) 60 (-900) 900 ltac:(lia) ltac:(lia) Hst))|].
    intros H2 j Hj. replace j with (k + (j - k))%nat by lia. rewrite <- (gslope_slice X Y k K HK HKl Hl) by lia.
    assert (Ls : length (slice X' k K) = (K - k)%nat) by (apply length_slice; lia).
    assert (B1 : block (slice X' k K) (slice Y' k K) 0 (length (slice X' k K)) (from k xs) (from k ys)).
    { apply (block_slice X' Y' Y' k K xs ys ys HB); [lia|]. apply (blk_Y _ _ _ _ _ _ HB). }
    destruct (slopes (slice X k K) (slice Y k K) (slice X' k K) (slice Y' k K) (from k xs) (from k ys) M) with (j := (j - k)%nat) as (fd & Ef & _).
    - apply holds_slice, HX.
    - apply holds_slice, HY.
    - exact B1.
    - lia.
    - intros i Hi. unfold from. replace (k + S i)%nat with (S (k + i)) by lia. apply Hst; lia.
    - intros i Hi. unfold from. apply Hys. lia.
    - exact HM.
    - lia.
    - lia.
    - rewrite Ls in Ef. exists fd. exact Ef. }
  destruct HC as (C & EC). rewrite EC. cbn [bind]. rewrite <- (pchip_same junk X Y C x 0 Hl (holds_regular _ _ HX) (holds_regular _ _ HY) EC). exact (E x Fx).
Qed.

Lemma scheme_fly64 interp ppc rel e : scheme64 interp ppc rel e ->
  exists itp, make_pp interp "u" "interp" true 2 = Ok itp /\ column_interp64 rel e (interp_two_named itp).
Proof.
  intros Hs. pose proof (scheme_sea interp ppc rel e nan Hs) as Hsea. destruct Hs.
  - exists "linear_interp_two"%string. split; [reflexivity|]. exact (column_fly _ linear_coeffs_i _ _ (linear_one_by_one nan) Hsea).
  - exists "pchip_interp_two"%string. split; [reflexivity|]. exact (column_fly _ pchip_coeffs_i _ _ (pchip_one_by_one nan) Hsea).
Qed.
