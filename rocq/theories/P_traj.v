(** * Neutral tangent planes and trajectories: proofs *)
From Coq Require Import ZArith Bool Reals Lra Lia List.
From Verif Require Import Num XR Res Arr ArrLemmas XRlemmas M_fzero S_fzero P_fzero M_ppinterp S_interp P_ppinterp
  P_pval P_pchip P_interp P_coeffs NumLaws P_interp2 M_traj S_traj P_domain.
Import ListNotations.
Local Open Scope R_scope.

Lemma within_pieces X Y n xs ys g : block X Y 0 n xs ys -> (1 < n)%nat ->
  (forall x i, in_piece 0 n xs x i -> Rmin (ys i) (ys (S i)) <= g x <= Rmax (ys i) (ys (S i))) ->
  within n xs ys g.
Proof.
  intros HB H1 Hg C HC Hy x Hx. destruct (in_piece_exists _ _ _ _ _ _ HB x ltac:(lia) Hx) as (i & Hi).
  apply (interval_minmax C (ys i) (ys (S i))); auto; apply Hy; destruct Hi; lia.
Qed.
Lemma cast_in_everywhere c : cast_in everywhere c.
Proof. destruct c as [[Sc Tc] Pc]. intros k K ss ts ps _ i _. repeat split. Qed.

(** a cast has one block of valid data *)
Lemma cast_in_block D Sc Tc Pc k K ss ts ps : cast Sc Tc Pc k K ss ts ps ->
  (forall i, (k <= i < K)%nat -> dS D (ss i) /\ dT D (ts i) /\ dP D (ps i)) -> cast_in D (Sc, Tc, Pc).
Proof.
  intros HC Hd k' K' ss' ts' ps' HC' i Hi. destruct HC as [HB HL HT], HC' as [HB' HL' HT'].
  pose proof (block_valid_range _ _ _ _ _ _ HB) as E. rewrite (block_valid_range _ _ _ _ _ _ HB') in E. injection E as -> ->.
  pose proof (blk_X _ _ _ _ _ _ HB i Hi) as E1. rewrite (blk_X _ _ _ _ _ _ HB' i Hi) in E1. injection E1 as ->.
  pose proof (blk_Y _ _ _ _ _ _ HB i Hi) as E2. rewrite (blk_Y _ _ _ _ _ _ HB' i Hi) in E2. injection E2 as ->.
  pose proof (HT i Hi) as E3. rewrite (HT' i Hi) in E3. injection E3 as ->. apply Hd. assumption.
Qed.

(** ** The two interpolators *)
Lemma linear_interpolator junk : interpolator (linear_coeffs_1 junk) linear_fun.
Proof.
  intros X Y xs ys HB H1. pose proof (blk_len _ _ _ _ _ _ HB) as Hl.
  assert (Hne : X <> []) by (intros ->; simpl in H1; lia).
  destruct (linear_final X Y 0 (length X) xs ys HB ltac:(lia)) as (g & G1 & G2 & G3 & G4).
  destruct (linear_coeffs_1_spec junk X Y Hne Hl) as (C & EC & HC & _).
  exists C, g. split; [assumption|]. split; [assumption|]. split; [|split; [assumption|split]].
  - intros x i Hi. apply G4. assumption.
  - apply (within_pieces _ _ _ _ _ _ HB H1). intros x i Hi. apply G4. assumption.
  - intros x Hx.
    assert (Hz : forall k K i, valid_range_1_two X Y = Ok (k, K) -> (k <= i)%nat -> (i + 1 < K)%nat ->
       eqb (sub (nth (i + 1) X nan) (nth i X nan)) zero = false).
    { intros k K i Ev Hk HK. rewrite (block_valid_range _ _ _ _ _ _ HB) in Ev. injection Ev as <- <-.
      pose proof (blk_inc _ _ _ _ _ _ HB i ltac:(lia) ltac:(lia)) as Hi.
      assert (Hlt : (i + 1 < length X)%nat) by assumption.
      assert (A : nth_error X i = Some (Fin (xs i))) by (apply (blk_X _ _ _ _ _ _ HB); lia).
      assert (B : nth_error X (i + 1) = Some (Fin (xs (i + 1)%nat))) by (apply (blk_X _ _ _ _ _ _ HB); lia).
      rewrite (nth_error_nth _ _ nan A), (nth_error_nth _ _ nan B).
      replace (i + 1)%nat with (S i) by lia. unfold zero. xsimp. apply Reqb_false. lra. }
    destruct (linear_same junk X Y (Fin x) 0 Hne Hl Hz) as (C' & EC' & E).
    rewrite EC in EC'. injection EC' as <-. rewrite <- E. apply G1. assumption.
Qed.

Lemma block_all_regular X Y xs ys : block X Y 0 (length X) xs ys -> regular X /\ regular Y.
Proof.
  intros HB. pose proof (blk_len _ _ _ _ _ _ HB) as Hl. split; intros i Hi.
  - rewrite (nth_error_nth _ _ nan (blk_X _ _ _ _ _ _ HB i ltac:(lia))). reflexivity.
  - rewrite (nth_error_nth _ _ nan (blk_Y _ _ _ _ _ _ HB i ltac:(lia))). reflexivity.
Qed.

Lemma pchip_interpolator junk : interpolator (pchip_coeffs_1_nonan junk) pchip_fun.
Proof.
  intros X Y xs ys HB H1. pose proof (blk_len _ _ _ _ _ _ HB) as Hl.
  destruct (pchip_coeffs_kK_ok _ _ _ _ _ _ HB junk) as (C & EC).
  assert (EC1 : pchip_coeffs_1 junk X Y = Ok C).
  { unfold pchip_coeffs_1. rewrite (block_valid_range _ _ _ _ _ _ HB). exact EC. }
  destruct (pchip_coeffs_kK_inv X Y junk 0 (length X) C Hl ltac:(lia) EC) as (HC & _ & _).
  set (c := pch_c 0 (length X) xs ys).
  assert (Hc : forall i, (0 <= i)%nat -> (S i < length X)%nat -> pchip_coeffs_i X Y i = Ok (map Fin (c i))).
  { intros. apply (pchip_coeffs_real _ _ _ _ _ _ HB); assumption. }
  exists C, (interpolant 0 (length X) xs c 0). split; [exact EC|]. split; [assumption|]. split; [|split; [|split]].
  - intros x i Hi. rewrite (interpolant_piece _ _ _ _ _ _ HB _ _ x i Hi). unfold c, pch_c.
    destruct Hi as (A1 & A2 & _).
    pose proof (h_pos _ _ _ _ _ _ HB i A1 A2). rewrite cubic_val by lra. cbv zeta.
    set (h := width xs i) in *. field. lra.
  - apply (interpolant_continuous _ _ _ _ _ _ HB). intros. unfold c. rewrite pch_left.
    apply (pch_right _ _ _ _ _ _ HB); lia.
  - apply (within_pieces _ _ _ _ _ _ HB H1). intros x i Hi. rewrite (interpolant_piece _ _ _ _ _ _ HB _ _ x i Hi).
    destruct Hi as (A1 & A2 & A3 & _). apply (pch_between _ _ _ _ _ _ HB); assumption.
  - intros x Hx. destruct (block_all_regular _ _ _ _ HB) as [R1 R2].
    rewrite <- (pchip_same junk X Y C (Fin x) 0 Hl R1 R2 EC1).
    apply (ppinterp_interpolant _ _ _ _ _ _ HB); [assumption|lia|assumption].
Qed.

(** ** Blocks of trimmed arrays *)
Lemma block_slice X Y Z k K xs ys zs : block X Y k K xs ys -> length Z = length X ->
  (forall i, (k <= i < K)%nat -> nth_error Z i = Some (Fin (zs i))) ->
  block (slice X k K) (slice Z k K) 0 (length (slice X k K)) (from k xs) (from k zs).
Proof.
  intros HB HZ HT. pose proof (blk_len _ _ _ _ _ _ HB). pose proof (blk_K _ _ _ _ _ _ HB). pose proof (blk_kK _ _ _ _ _ _ HB).
  rewrite length_slice by lia. constructor.
  - rewrite !length_slice by lia. reflexivity.
  - lia.
  - rewrite length_slice by lia. lia.
  - intros i Hi. rewrite nth_error_slice by lia. apply (blk_X _ _ _ _ _ _ HB). lia.
  - intros i Hi. rewrite nth_error_slice by lia. apply HT. lia.
  - intros i _ Hi. unfold from. replace (k + S i)%nat with (S (k + i)) by lia. apply (blk_inc _ _ _ _ _ _ HB); lia.
  - lia.
  - rewrite length_slice by lia. lia.
Qed.

Lemma same_nans_blocks X Y Z xs ys zs : block X Y 0 (length X) xs ys -> block X Z 0 (length X) xs zs -> same_nans Y Z.
Proof.
  intros H1 H2. pose proof (blk_len _ _ _ _ _ _ H1). pose proof (blk_len _ _ _ _ _ _ H2). split; [lia|].
  intros i Hi. rewrite (nth_error_nth _ _ nan (blk_Y _ _ _ _ _ _ H1 i ltac:(lia))).
  rewrite (nth_error_nth _ _ nan (blk_Y _ _ _ _ _ _ H2 i ltac:(lia))). split; reflexivity.
Qed.

Lemma valid_range_swap (X Y : list xr) : length X = length Y -> valid_range_1_two X Y = valid_range_1_two Y X.
Proof.
  intros Hl. unfold valid_range_1_two. rewrite <- Hl.
  rewrite (first_index_ext _ _ (fun i => let! x := get Y i in
                if isfinite x then let! y := get X i in Ok (isfinite y) else Ok false)).
  2:{ intros i Hi. apply in_seq in Hi. rewrite !(get_nth _ _ nan) by lia. cbn [bind].
      destruct (isfinite (nth i X nan)), (isfinite (nth i Y nan)); reflexivity. }
  destruct (first_index _ _ _) as [k|]; [|reflexivity]. cbn [bind].
  rewrite (first_index_ext _ _ (fun i => let! x := get Y i in
                if isnan x then Ok true else let! y := get X i in Ok (isnan y))).
  2:{ intros i Hi. apply in_seq in Hi. rewrite !(get_nth _ _ nan) by lia. cbn [bind].
      destruct (isnan (nth i X nan)), (isnan (nth i Y nan)); reflexivity. }
  reflexivity.
Qed.

Lemma no_data_range X Y : no_data X Y -> valid_range_1_two X Y = Ok (length X, length X).
Proof.
  intros [Hl Hd]. destruct (valid_range_1_two_spec X Y) as (k & K & E & H1 & H2 & H3 & H4 & H5); [lia|].
  assert (k = length X).
  { destruct (Nat.eq_dec k (length X)) as [|Hk]; [assumption|].
    destruct (H3 ltac:(lia)) as (A1 & A2 & A3). exfalso.
    destruct (Hd k ltac:(lia)) as [E1|E1]; apply (nth_error_nth _ _ nan) in E1; rewrite E1 in *; discriminate. }
  subst k. rewrite E. do 2 f_equal. lia.
Qed.

(** ** One link *)
Section Link.
  Variables (D : domain) (eos : xr -> xr -> xr -> res xr) (rho : R -> R -> R -> R).
  Hypothesis Heos : eos_on D eos rho.
  Variables (ppc_fn : list xr -> list xr -> res (list (list xr))).
  Variable rel : nat -> (nat -> R) -> (nat -> R) -> (R -> R) -> Prop.
  Hypothesis Hppc : interpolator ppc_fn rel.
  Variables (S T P : list xr) (k K : nat) (ss ts ps : nat -> R).
  Hypothesis HC : cast S T P k K ss ts ps.
  Hypothesis H2 : (k + 1 < K)%nat.

  (** the interpolants of the trimmed cast *)
  Lemma cast_interpolants : exists Sppc Tppc gS gT,
    ppc_fn (slice P k K) (slice S k K) = Ok Sppc /\ ppc_fn (slice P k K) (slice T k K) = Ok Tppc
    /\ rel (K - k)%nat (from k ps) (from k ss) gS /\ rel (K - k)%nat (from k ps) (from k ts) gT
    /\ (forall x, continuity_pt gS x) /\ (forall x, continuity_pt gT x)
    /\ within (K - k)%nat (from k ps) (from k ss) gS /\ within (K - k)%nat (from k ps) (from k ts) gT
    /\ (forall x, ps k <= x <= ps (K - 1)%nat ->
          ppval_1_nonan_two (Fin x) (slice P k K) Sppc Tppc 0 = Ok (Fin (gS x), Fin (gT x))
          /\ ppval_1_two (Fin x) (slice P k K) Sppc Tppc 0 = Ok (Fin (gS x), Fin (gT x)))
    /\ get (slice P k K) 0 = Ok (Fin (ps k))
    /\ get (slice P k K) (length (slice P k K) - 1) = Ok (Fin (ps (K - 1)%nat)).
  Proof.
    destruct HC as [HB HlT HT]. pose proof (blk_len _ _ _ _ _ _ HB) as Hl. pose proof (blk_K _ _ _ _ _ _ HB) as HK.
    assert (B1 : block (slice P k K) (slice S k K) 0 (length (slice P k K)) (from k ps) (from k ss)).
    { apply (block_slice P S S k K ps ss ss HB); [lia|]. apply (blk_Y _ _ _ _ _ _ HB). }
    assert (B2 : block (slice P k K) (slice T k K) 0 (length (slice P k K)) (from k ps) (from k ts)).
    { apply (block_slice P S T k K ps ss ts HB); [lia|]. apply HT. }
    assert (Hls : length (slice P k K) = (K - k)%nat) by (apply length_slice; lia).
    destruct (Hppc _ _ _ _ B1) as (Sppc & gS & S1 & S2 & S3 & S4 & S6 & S5); [lia|].
    destruct (Hppc _ _ _ _ B2) as (Tppc & gT & T1 & T2 & T3 & T4 & T6 & T5); [lia|].
    rewrite Hls in S3, T3, S6, T6. exists Sppc, Tppc, gS, gT. repeat (split; [assumption|]).
    assert (E0 : from k ps 0 = ps k) by (unfold from; f_equal; lia).
    assert (E1 : from k ps (length (slice P k K) - 1) = ps (K - 1)%nat) by (unfold from; f_equal; lia).
    split; [|split].
    - intros x Hx. assert (E : ppval_1_two (Fin x) (slice P k K) Sppc Tppc 0 = Ok (Fin (gS x), Fin (gT x))).
      { apply ppval_1_two_pair.
        - replace (length Sppc) with (length (last_col Sppc)) by apply map_length. rewrite S2. apply (blk_len _ _ _ _ _ _ B1).
        - rewrite S2, T2. apply (same_nans_blocks _ _ _ _ _ _ B1 B2).
        - split; [apply S5|apply T5]; rewrite E0, E1; assumption. }
      split; [|exact E]. rewrite (ppval_1_nonan_two_same _ Sppc Tppc (from k ps) (from k ss)); [exact E| |lia].
      rewrite S2. exact B1.
    - rewrite (blk_getX _ _ _ _ _ _ B1) by lia. rewrite E0. reflexivity.
    - rewrite (blk_getX _ _ _ _ _ _ B1) by lia. rewrite E1. reflexivity.
  Qed.

  Lemma ps_le : ps k <= ps (K - 1)%nat.
  Proof. apply (blk_mono_le _ _ _ _ _ _ (cast_blk _ _ _ _ _ _ _ _ HC)); lia. Qed.

  (** interpolated values are in the ranges of the data *)
  Lemma from_in g f C x : interval C -> (forall i, (k <= i < K)%nat -> C (f i)) -> within (K - k)%nat (from k ps) (from k f) g ->
    ps k <= x <= ps (K - 1)%nat -> C (g x).
  Proof.
    intros HI Hf Hw Hx. apply (Hw C HI).
    - intros i Hi. apply Hf. lia.
    - unfold from. replace (k + 0)%nat with k by lia. replace (k + (K - k - 1))%nat with (K - 1)%nat by lia. assumption.
  Qed.
  Lemma values_in gS gT : cast_in D (S, T, P) ->
    within (K - k)%nat (from k ps) (from k ss) gS -> within (K - k)%nat (from k ps) (from k ts) gT ->
    forall x, ps k <= x <= ps (K - 1)%nat -> dS D (gS x) /\ dT D (gT x) /\ dP D x.
  Proof.
    intros Hin WS WT x Hx. specialize (Hin _ _ _ _ _ HC). split; [|split].
    - apply (from_in gS ss); auto using dS_interval. intros. apply Hin. assumption.
    - apply (from_in gT ts); auto using dT_interval. intros. apply Hin. assumption.
    - apply (dP_interval D (ps k) (ps (K - 1)%nat)); [apply Hin; lia|apply Hin; lia|assumption].
  Qed.
  Hypothesis Hin : cast_in D (S, T, P).

  Variables (sB tB pB tol : R).
  Hypothesis Htol : 0 < tol.
  Hypothesis HsB : dS D sB.
  Hypothesis HtB : dT D tB.
  Hypothesis HpB : dP D pB.

  (** pressure of the link, with given interpolants *)
  Lemma link_ppc Pm Sppc Tppc gS gT a b :
    a <= b ->
    (forall x, a <= x <= b -> ppval_1_nonan_two (Fin x) Pm Sppc Tppc 0 = Ok (Fin (gS x), Fin (gT x))) ->
    (forall x, a <= x <= b -> dS D (gS x) /\ dT D (gT x) /\ dP D x) ->
    get Pm 0 = Ok (Fin a) -> get Pm (length Pm - 1) = Ok (Fin b) ->
    exists r,
      (forall fuel, (13 <= fuel)%nat -> 2 * (b - a) / tol + 1 <= INR fuel ->
         ntp_bottle_to_cast_ppc eos fuel (Fin tol) (Fin sB) (Fin tB) (Fin pB) Pm Sppc Tppc = Ok r)
      /\ let h := ntp_diff rho sB tB pB gS gT in
         ((r = NaN /\ 0 < h a * h b)
          \/ exists p, r = Fin p /\ a <= p <= b /\ near_root h a b p (brent_tol p tol)).
  Proof.
    intros Hab Hv Hd Ha Hb. set (h := ntp_diff rho sB tB pB gS gT).
    set (f := pot_dens_diff eos (Fin sB) (Fin tB) (Fin pB) Pm Sppc Tppc).
    assert (Hf : forall x, a <= x <= b -> f (Fin x) = Ok (Fin (h x))).
    { intros x Hx. unfold f, pot_dens_diff. rewrite Hv by assumption. cbn [bind]. xsimp.
      destruct (Hd x Hx) as (D1 & D2 & D3). pose proof (interval_mid _ _ _ (dP_interval D) HpB D3) as D4.
      replace ((pB + x) * (/ 2)) with ((pB + x) / 2) by reflexivity.
      rewrite !Heos by assumption. cbn [bind]. xsimp. reflexivity. }
    destruct (guess_to_bounds_correct f h (Fin pB) a b Hab) as (r & Hr & Hcases); [discriminate|assumption|].
    unfold ntp_bottle_to_cast_ppc. rewrite Ha, Hb. cbn [bind]. fold f.
    assert (Hnr : forall a' b' x, a <= a' -> b' <= b -> near_root h a' b' x (brent_tol x tol) ->
              near_root h a b x (brent_tol x tol)).
    { intros a' b' x Ha' Hb' [E|(c & Hc & Hcd & Ho)]; [left; assumption|right]. exists c. repeat split; auto; lra. }
    assert (Hfu : forall a' b' fuel, a <= a' -> a' <= b' -> b' <= b -> 2 * (b - a) / tol + 1 <= INR fuel ->
              2 * (b' - a') / tol + 1 <= INR fuel).
    { intros a' b' fuel h1 h2 h3 h4. eapply Rle_trans; [|exact h4]. apply Rplus_le_compat_r.
      unfold Rdiv. apply Rmult_le_compat_r; [left; apply Rinv_0_lt_compat; assumption|lra]. }
    assert (Hbr : forall a' b', a <= a' -> a' <= b' -> b' <= b -> h a' * h b' <= 0 -> r = (Fin a', Fin b') ->
       exists p, (forall fuel, (13 <= fuel)%nat -> 2 * (b - a) / tol + 1 <= INR fuel ->
                    (let! lu := guess_to_bounds f fuel (Fin pB) (Fin a) (Fin b) in
                     let (lb, ub) := lu in if isfinite lb then brent f fuel lb ub (Fin tol) else Ok nan) = Ok (Fin p))
         /\ a <= p <= b /\ near_root h a b p (brent_tol p tol)).
    { intros a' b' h1 h2 h3 h4 Er.
      destruct (brent_correct f h a' b' tol h2 Htol) as (x & Hx & Hx1 & Hx2); auto.
      { intros y Hy. apply Hf. lra. }
      exists x. split; [|split; [lra|eapply Hnr; [| |exact Hx2]; assumption]].
      intros fuel Hfu1 Hfu2. rewrite Hr by assumption. rewrite Er. cbn [bind isfinite]. xsimp.
      apply Hx. apply Hfu; auto. }
    destruct Hcases as [[Er E0]|[[Er E0]|[(a' & b' & Er & h1 & h2 & Ho)|[Er E0]]]].
    - destruct (Hbr a a) as (p & G1 & G2 & G3); auto; try lra; try nra. 
      exists (Fin p). split; [assumption|]. right. exists p. auto.
    - destruct (Hbr b b) as (p & G1 & G2 & G3); auto; try lra; try nra.
      exists (Fin p). split; [assumption|]. right. exists p. auto.
    - destruct (Hbr a' b') as (p & G1 & G2 & G3); auto; try lra.
      { destruct Ho as [[? ?]|[? ?]]; nra. }
      exists (Fin p). split; [assumption|]. right. exists p. auto.
    - exists NaN. split; [|left; auto]. intros fuel Hfu1 Hfu2. rewrite Hr by assumption. rewrite Er. reflexivity.
  Qed.

  Lemma ntp_bottle_to_cast_correct :
    exists gS gT r,
      rel (K - k)%nat (from k ps) (from k ss) gS /\ rel (K - k)%nat (from k ps) (from k ts) gT
      /\ (forall x, continuity_pt gS x) /\ (forall x, continuity_pt gT x)
      /\ (forall x, ps k <= x <= ps (K - 1)%nat -> dS D (gS x) /\ dT D (gT x) /\ dP D x)
      /\ (forall fuel, (13 <= fuel)%nat -> 2 * (ps (K - 1)%nat - ps k) / tol + 1 <= INR fuel ->
           ntp_bottle_to_cast_pub eos ppc_fn fuel (Fin sB) (Fin tB) (Fin pB) S T P (Fin tol) = Ok r)
      /\ let h := ntp_diff rho sB tB pB gS gT in
         ((r = (NaN, NaN, NaN) /\ 0 < h (ps k) * h (ps (K - 1)%nat))
          \/ exists p, r = (Fin (gS p), Fin (gT p), Fin p) /\ ps k <= p <= ps (K - 1)%nat
               /\ near_root h (ps k) (ps (K - 1)%nat) p (brent_tol p tol)).
  Proof.
    destruct cast_interpolants as (Sppc & Tppc & gS & gT & E1 & E2 & R1 & R2 & C1 & C2 & W1 & W2 & Hv & G0 & G1).
    destruct (link_ppc (slice P k K) Sppc Tppc gS gT (ps k) (ps (K - 1)%nat) ps_le) as (r & Hr & Hc); auto.
    { intros x Hx. apply Hv. assumption. }
    { apply values_in; assumption. }
    assert (Hvr : valid_range_1_two S P = Ok (k, K)).
    { rewrite valid_range_swap; [|symmetry; apply (blk_len _ _ _ _ _ _ (cast_blk _ _ _ _ _ _ _ _ HC))].
      apply (block_valid_range _ _ _ _ _ _ (cast_blk _ _ _ _ _ _ _ _ HC)). }
    pose proof (values_in gS gT Hin W1 W2) as Hvi.
    exists gS, gT. destruct Hc as [[-> Hn]|(p & -> & Hp & Hnr)].
    - exists (NaN, NaN, NaN). repeat (split; [assumption|]). split; [|left; auto].
      intros fuel Hf1 Hf2. unfold ntp_bottle_to_cast_pub. rewrite Hvr. cbn [bind]. unfold ntp_bottle_to_cast.
      destruct (Nat.ltb_spec 1 (K - k)); [|lia]. rewrite E1, E2. cbn [bind]. rewrite Hr by assumption. reflexivity.
    - exists (Fin (gS p), Fin (gT p), Fin p). repeat (split; [assumption|]). split; [|right; exists p; auto].
      intros fuel Hf1 Hf2. unfold ntp_bottle_to_cast_pub. rewrite Hvr. cbn [bind]. unfold ntp_bottle_to_cast.
      destruct (Nat.ltb_spec 1 (K - k)); [|lia]. rewrite E1, E2. cbn [bind]. rewrite Hr by assumption. cbn [bind].
      xsimp. rewrite (proj1 (Hv p Hp)). reflexivity.
  Qed.
End Link.

Lemma ntp_diff_continuous D rho sB tB pB gS gT : continuous3 D rho ->
  dS D sB -> dT D tB -> dP D pB ->
  (forall x, continuity_pt gS x) -> (forall x, continuity_pt gT x) ->
  forall x, dS D (gS x) -> dT D (gT x) -> dP D x -> continuity_pt (ntp_diff rho sB tB pB gS gT) x.
Proof.
  intros Hr HsB HtB HpB HS HT x HgS HgT Hx. pose proof (interval_mid _ _ _ (dP_interval D) HpB Hx) as Hmid.
  assert (Hp : forall x, continuity_pt (fun p => (pB + p) / 2) x).
  { intros y. apply (continuity_pt_mult (fun p => pB + p) (fun _ => / 2)).
    - apply (continuity_pt_plus (fun _ => pB) (fun p => p)).
      + apply continuity_pt_const. intros ? ?; reflexivity.
      + apply derivable_continuous_pt, derivable_pt_id.
    - apply continuity_pt_const. intros ? ?; reflexivity. }
  apply (continuity_pt_minus (fun p => rho sB tB ((pB + p) / 2)) (fun p => rho (gS p) (gT p) ((pB + p) / 2))).
  - apply (Hr (fun _ => sB) (fun _ => tB) (fun p => (pB + p) / 2)); auto;
      apply continuity_pt_const; intros ? ?; reflexivity.
  - apply (Hr gS gT (fun p => (pB + p) / 2)); auto.
Qed.

(** with a continuous equation of state there is an exactly neutral point nearby *)
Lemma ntp_bottle_to_cast_neutral D eos rho ppc_fn rel S T P k K ss ts ps sB tB pB tol :
  eos_on D eos rho -> continuous3 D rho -> interpolator ppc_fn rel ->
  cast S T P k K ss ts ps -> (k + 1 < K)%nat -> cast_in D (S, T, P) -> 0 < tol -> dS D sB -> dT D tB -> dP D pB ->
  exists gS gT r,
    rel (K - k)%nat (from k ps) (from k ss) gS /\ rel (K - k)%nat (from k ps) (from k ts) gT
    /\ (forall fuel, (13 <= fuel)%nat -> 2 * (ps (K - 1)%nat - ps k) / tol + 1 <= INR fuel ->
         ntp_bottle_to_cast_pub eos ppc_fn fuel (Fin sB) (Fin tB) (Fin pB) S T P (Fin tol) = Ok r)
    /\ let h := ntp_diff rho sB tB pB gS gT in
       (r = (NaN, NaN, NaN) /\ 0 < h (ps k) * h (ps (K - 1)%nat)
        \/ exists p q, r = (Fin (gS p), Fin (gT p), Fin p) /\ ps k <= p <= ps (K - 1)%nat
             /\ ps k <= q <= ps (K - 1)%nat /\ h q = 0 /\ Rabs (p - q) <= brent_tol p tol).
Proof.
  intros He Hc Hp HC H2 Hin Ht HsB HtB HpB.
  destruct (ntp_bottle_to_cast_correct D eos rho He ppc_fn rel Hp S T P k K ss ts ps HC H2 Hin sB tB pB tol Ht HsB HtB HpB)
    as (gS & gT & r & R1 & R2 & C1 & C2 & Hd & Hr & Hcase).
  exists gS, gT, r. split; [assumption|]. split; [assumption|]. split; [assumption|].
  destruct Hcase as [H|(p & -> & Hp1 & Hp2)]; [left; assumption|right].
  destruct (near_root_continuous (ntp_diff rho sB tB pB gS gT) (ps k) (ps (K - 1)%nat) p (brent_tol p tol) Hp1)
    as (q & Q1 & Q2 & Q3).
  - left. apply brent_tol_pos. assumption.
  - intros x Hx. destruct (Hd x Hx) as (D1 & D2 & D3). apply (ntp_diff_continuous D); assumption.
  - assumption.
  - exists p, q. auto.
Qed.

Lemma short_cast_range S P : short_cast S P -> exists k K, valid_range_1_two S P = Ok (k, K) /\ (K - k <= 1)%nat
  /\ (K <= length P)%nat /\ length S = length P.
Proof.
  intros [H|(k & ps & ss & HB)].
  - exists (length P), (length P). rewrite valid_range_swap by (symmetry; apply H). rewrite no_data_range by assumption.
    split; [reflexivity|]. destruct H. lia.
  - pose proof (blk_len _ _ _ _ _ _ HB). pose proof (blk_K _ _ _ _ _ _ HB).
    exists k, (k + 1)%nat. rewrite valid_range_swap by lia.
    rewrite (block_valid_range _ _ _ _ _ _ HB). split; [reflexivity|]. lia.
Qed.

Lemma ntp_short_cast eos ppc_fn fuel sB tB pB tol S T P : short_cast S P ->
  ntp_bottle_to_cast_pub eos ppc_fn fuel sB tB pB S T P tol = Ok (NaN, NaN, NaN).
Proof.
  intros H. destruct (short_cast_range S P H) as (k & K & E & HK & _ & _).
  unfold ntp_bottle_to_cast_pub. rewrite E. cbn [bind]. unfold ntp_bottle_to_cast.
  destruct (Nat.ltb_spec 1 (K - k)); [lia|]. reflexivity.
Qed.

(** a link on any cast from a finite bottle: total, and all NaN or all finite *)
Lemma ntp_any_cast D eos rho ppc_fn rel c sB tB pB tol fuel :
  eos_on D eos rho -> interpolator ppc_fn rel -> any_cast c -> cast_in D c -> 0 < tol -> enough_fuel fuel tol c ->
  dS D sB -> dT D tB -> dP D pB ->
  let '(Sc, Tc, Pc) := c in
  exists r, ntp_bottle_to_cast_pub eos ppc_fn fuel (Fin sB) (Fin tB) (Fin pB) Sc Tc Pc (Fin tol) = Ok r
    /\ (r = (NaN, NaN, NaN) \/ bottle_in D r).
Proof.
  intros He Hp Hc Hin Ht Hf HsB HtB HpB. destruct c as [[Sc Tc] Pc]. destruct Hc as [Hs|(k & K & ss & ts & ps & HC & H2)].
  - exists (NaN, NaN, NaN). rewrite ntp_short_cast by assumption. auto.
  - destruct (ntp_bottle_to_cast_correct D eos rho He ppc_fn rel Hp Sc Tc Pc k K ss ts ps HC H2 Hin sB tB pB tol Ht HsB HtB HpB)
      as (gS & gT & r & _ & _ & _ & _ & Hd & Hr & Hcase).
    exists r. destruct Hf as [Hf1 Hf2]. split; [apply Hr; eauto|].
    destruct Hcase as [[-> _]|(p & -> & Hpr & _)]; [left; reflexivity|right]. exists (gS p), (gT p), p. auto.
Qed.

(** ** Trajectories *)
Section Generic.
  Context {F : Type} {N : Num F}.
  Variables (eos : F -> F -> F -> res F) (ppc_fn : list F -> list F -> res (list (list F))) (fuel : nat).

  (** l is the result on [casts] after the bottle prev *)
  Fixpoint links (tol : F) (prev : F * F * F) (casts : list (list F * list F * list F)) (l : list (F * F * F)) : Prop :=
    match casts, l with
    | [], [] => True
    | (Sc, Tc, Pc) :: casts, r :: l =>
        (if isnan (snd prev) then r = (nan, nan, nan)
         else let '(s, t, p) := prev in ntp_bottle_to_cast_pub eos ppc_fn fuel s t p Sc Tc Pc tol = Ok r)
        /\ links tol r casts l
    | _, _ => False
    end.
  Hypothesis Hnan : isnan (nan : F) = true.

  Lemma links_nan tol prev casts : isnan (snd prev) = true ->
    links tol prev casts (repeat (nan, nan, nan) (length casts)).
  Proof.
    revert prev. induction casts as [|[[Sc Tc] Pc] casts IH]; intros prev Hp; simpl; auto.
    rewrite Hp. split; auto. 
  Qed.

  Lemma traj_loop_links tol p0 casts : forall prev l,
    isnan (snd prev) = false -> traj_loop eos ppc_fn fuel tol p0 (Some prev) casts = Ok l ->
    (length l <= length casts)%nat /\ links tol prev casts (l ++ repeat (nan, nan, nan) (length casts - length l)).
  Proof.
    induction casts as [|[[Sc Tc] Pc] casts IH]; intros prev l Hp H.
    - simpl in H. injection H as <-. simpl. auto.
    - destruct prev as [[s t] p]. cbn [traj_loop] in H.
      destruct (valid_range_1_two Sc Pc) as [[k K]|] eqn:Ev; cbn [bind] in H; [|discriminate].
      destruct (ntp_bottle_to_cast eos ppc_fn fuel s t p Sc Tc Pc k K tol) as [r|] eqn:Er; cbn [bind] in H; [|discriminate].
      assert (Epub : ntp_bottle_to_cast_pub eos ppc_fn fuel s t p Sc Tc Pc tol = Ok r).
      { unfold ntp_bottle_to_cast_pub. rewrite Ev. cbn [bind]. assumption. }
      destruct (isnan (snd r)) eqn:En.
      + injection H as <-. simpl. split; [lia|]. simpl in Hp. rewrite Hp. split; [assumption|].
        rewrite Nat.sub_0_r. apply links_nan. assumption.
      + destruct (traj_loop eos ppc_fn fuel tol p0 (Some r) casts) as [l'|] eqn:El; cbn [bind] in H; [|discriminate].
        injection H as <-. destruct (IH r l' En El) as [Hle Hl]. simpl. split; [lia|].
        simpl in Hp. rewrite Hp. auto.
  Qed.

  Lemma links_spec tol prev casts l : links tol prev casts l ->
    length l = length casts /\
    forall c Sc Tc Pc, nth_error casts c = Some (Sc, Tc, Pc) ->
      exists b r, nth_error (prev :: l) c = Some b /\ nth_error l c = Some r
        /\ (isnan (snd b) = true -> r = (nan, nan, nan))
        /\ (isnan (snd b) = false -> let '(s, t, p) := b in ntp_bottle_to_cast_pub eos ppc_fn fuel s t p Sc Tc Pc tol = Ok r).
  Proof.
    revert prev l. induction casts as [|[[Sc Tc] Pc] casts IH]; intros prev [|r l] H; simpl in H; try contradiction.
    - split; [reflexivity|]. intros [|c]; discriminate.
    - destruct H as [H1 H2]. destruct (IH r l H2) as [Hl Hc]. split; [simpl; lia|].
      intros [|c] S' T' P' Hn.
      + simpl in Hn. injection Hn as <- <- <-. exists prev, r. split; [reflexivity|]. split; [reflexivity|].
        destruct (isnan (snd prev)); split; intros E; try discriminate; auto.
      + simpl in Hn. destruct (Hc c S' T' P' Hn) as (b & r' & E1 & E2 & E3 & E4). exists b, r'. simpl.
        split; [exact E1|]. split; [exact E2|]. auto.
  Qed.

  Lemma neutral_trajectory_spec S0 T0 P0 casts p0 tol l :
    neutral_trajectory eos ppc_fn fuel ((S0, T0, P0) :: casts) p0 tol = Ok l ->
    exists s t k K Sppc Tppc l',
      l = (s, t, p0) :: l' /\ length l' = length casts
      /\ valid_range_1_two S0 P0 = Ok (k, K)
      /\ ppc_fn (slice P0 k K) (slice S0 k K) = Ok Sppc /\ ppc_fn (slice P0 k K) (slice T0 k K) = Ok Tppc
      /\ ppval_1_nonan_two p0 (slice P0 k K) Sppc Tppc 0 = Ok (s, t)
      /\ forall c Sc Tc Pc, nth_error casts c = Some (Sc, Tc, Pc) ->
         exists b r, nth_error l c = Some b /\ nth_error l (c + 1) = Some r
           /\ (isnan (snd b) = true -> r = (nan, nan, nan))
           /\ (isnan (snd b) = false -> let '(s, t, p) := b in ntp_bottle_to_cast_pub eos ppc_fn fuel s t p Sc Tc Pc tol = Ok r).
  Proof.
    unfold neutral_trajectory. intros H. cbn [traj_loop] in H.
    destruct (valid_range_1_two S0 P0) as [[k K]|] eqn:Ev; cbn [bind] in H; [|discriminate].
    destruct (ppc_fn (slice P0 k K) (slice S0 k K)) as [Sppc|] eqn:ES; cbn [bind] in H; [|discriminate].
    destruct (ppc_fn (slice P0 k K) (slice T0 k K)) as [Tppc|] eqn:ET; cbn [bind] in H; [|discriminate].
    destruct (ppval_1_nonan_two p0 (slice P0 k K) Sppc Tppc 0) as [[s t]|] eqn:Ep; cbn [bind] in H; [|discriminate].
    assert (Hl : exists l', l = (s, t, p0) :: l' /\ links tol (s, t, p0) casts l').
    { cbn [snd] in H. destruct (isnan p0) eqn:En.
      - cbn [bind] in H. injection H as <-. simpl. rewrite Nat.sub_0_r. eexists. split; [reflexivity|].
        apply links_nan. assumption.
      - destruct (traj_loop eos ppc_fn fuel tol p0 (Some (s, t, p0)) casts) as [l'|] eqn:El; cbn [bind] in H; [|discriminate].
        injection H as <-. destruct (traj_loop_links tol p0 casts (s, t, p0) l' En El) as [_ Hl].
        simpl. eexists. split; [reflexivity|assumption]. }
    destruct Hl as (l' & -> & Hl). destruct (links_spec tol _ _ _ Hl) as [Hlen Hc].
    exists s, t, k, K, Sppc, Tppc, l'. repeat (split; [assumption || reflexivity|]).
    intros c Sc Tc Pc Hn. destruct (Hc c Sc Tc Pc Hn) as (b & r & E1 & E2 & E3). exists b, r. split; [exact E1|].
    rewrite Nat.add_1_r. simpl. auto.
  Qed.
End Generic.

Lemma traj_loop_total D eos rho ppc_fn rel tol fuel p0 casts :
  eos_on D eos rho -> interpolator ppc_fn rel -> 0 < tol ->
  (forall c, In c casts -> any_cast c /\ cast_in D c /\ enough_fuel fuel tol c) ->
  forall sB tB pB, dS D sB -> dT D tB -> dP D pB -> exists l, traj_loop eos ppc_fn fuel (Fin tol) p0 (Some (Fin sB, Fin tB, Fin pB)) casts = Ok l
    /\ forall r, In r l -> r = (NaN, NaN, NaN) \/ bottle_in D r.
Proof.
  intros He Hp Ht. induction casts as [|[[Sc Tc] Pc] casts IH]; intros Hc sB tB pB HsB HtB HpB.
  - exists []. split; [reflexivity|]. intros r [].
  - destruct (Hc (Sc, Tc, Pc) (or_introl eq_refl)) as (H1 & Hin & H2).
    destruct (ntp_any_cast D eos rho ppc_fn rel (Sc, Tc, Pc) sB tB pB tol fuel He Hp H1 Hin Ht H2 HsB HtB HpB) as (r & Er & Hr).
    unfold ntp_bottle_to_cast_pub in Er. cbn [traj_loop].
    destruct (valid_range_1_two Sc Pc) as [[k K]|]; cbn [bind] in *; [|discriminate].
    rewrite Er. cbn [bind]. destruct Hr as [->|(s & t & p & -> & D1 & D2 & D3)]; cbn [snd isnan xrNum xr_isnan].
    + eexists. split; [reflexivity|]. intros r [<-|[]]. auto.
    + destruct (IH ltac:(intros c Hcin; apply Hc; right; assumption) s t p D1 D2 D3) as (l & El & Hl). rewrite El. cbn [bind].
      eexists. split; [reflexivity|]. intros r [<-|Hr]; [right; exists s, t, p; auto|auto].
Qed.

Lemma neutral_trajectory_total D eos rho ppc_fn rel tol fuel p0 Sc Tc Pc k K ss ts ps casts :
  eos_on D eos rho -> interpolator ppc_fn rel -> 0 < tol ->
  cast Sc Tc Pc k K ss ts ps -> (k + 1 < K)%nat -> cast_in D (Sc, Tc, Pc) -> ps k <= p0 <= ps (K - 1)%nat ->
  (forall c, In c casts -> any_cast c /\ cast_in D c /\ enough_fuel fuel tol c) ->
  exists l, neutral_trajectory eos ppc_fn fuel ((Sc, Tc, Pc) :: casts) (Fin p0) (Fin tol) = Ok l
    /\ forall r, In r l -> r = (NaN, NaN, NaN) \/ bottle_in D r.
Proof.
  intros He Hp Ht HC H2 Hi0 Hp0 Hc.
  destruct (cast_interpolants ppc_fn rel Hp Sc Tc Pc k K ss ts ps HC H2)
    as (Sppc & Tppc & gS & gT & E1 & E2 & _ & _ & _ & _ & W1 & W2 & Hv & _ & _).
  destruct (values_in D Sc Tc Pc k K ss ts ps HC H2 gS gT Hi0 W1 W2 p0 Hp0) as (D1 & D2 & D3).
  unfold neutral_trajectory. cbn [traj_loop].
  rewrite valid_range_swap by (symmetry; apply (blk_len _ _ _ _ _ _ (cast_blk _ _ _ _ _ _ _ _ HC))).
  rewrite (block_valid_range _ _ _ _ _ _ (cast_blk _ _ _ _ _ _ _ _ HC)). cbn [bind]. rewrite E1, E2. cbn [bind].
  rewrite (proj1 (Hv p0 Hp0)). cbn [bind snd isnan xrNum xr_isnan].
  destruct (traj_loop_total D eos rho ppc_fn rel tol fuel (Fin p0) casts He Hp Ht Hc (gS p0) (gT p0) p0 D1 D2 D3) as (l & El & Hl).
  rewrite El. cbn [bind]. eexists. split; [reflexivity|].
  intros r Hin. apply in_app_or in Hin as [[<-|Hin]|Hin]; [right; exists (gS p0), (gT p0), p0; auto|auto|].
  apply repeat_spec in Hin. left. assumption.
Qed.

(** ** A bottle without pressure: the search for brackets never ends *)
Lemma guess_to_bounds_all_nan (f : xr -> res xr) A B :
  f (Fin A) = Ok NaN -> f (Fin B) = Ok NaN -> f NaN = Ok NaN ->
  forall fuel, guess_to_bounds f fuel NaN (Fin A) (Fin B) = Err OutOfFuel.
Proof.
  intros HA HB Hf fuel. unfold guess_to_bounds. rewrite HA, HB. xsimp.
  unfold fmax, fmin. xsimp.
  unfold sdiv, zero. xsimp. rewrite !Reqb_false by lra. cbn [div xrNum xr_div bind]. xsimp.
  rewrite Hf. xsimp.
  induction fuel as [|n IH]; [reflexivity|].
  cbn [loop]. unfold gtb_body at 1, gtb_left, gtb_right. xsimp. exact IH.
Qed.

Lemma ntp_nan_bottle eos ppc_fn rel S T P k K ss ts ps sB tB tol :
  (forall s t, eos s t NaN = Ok NaN) -> interpolator ppc_fn rel ->
  cast S T P k K ss ts ps -> (k + 1 < K)%nat ->
  forall fuel, ntp_bottle_to_cast_pub eos ppc_fn fuel sB tB NaN S T P tol = Err OutOfFuel.
Proof.
  intros He Hp HC H2 fuel.
  destruct (cast_interpolants ppc_fn rel Hp S T P k K ss ts ps HC H2)
    as (Sppc & Tppc & gS & gT & E1 & E2 & _ & _ & _ & _ & _ & _ & Hv & G0 & G1).
  pose proof (cast_blk _ _ _ _ _ _ _ _ HC) as HB.
  assert (Hle : ps k <= ps (K - 1)%nat) by (apply (blk_mono_le _ _ _ _ _ _ HB); lia).
  unfold ntp_bottle_to_cast_pub. rewrite valid_range_swap by (symmetry; apply (blk_len _ _ _ _ _ _ HB)).
  rewrite (block_valid_range _ _ _ _ _ _ HB). cbn [bind]. unfold ntp_bottle_to_cast.
  destruct (Nat.ltb_spec 1 (K - k)); [|lia]. rewrite E1, E2. cbn [bind].
  unfold ntp_bottle_to_cast_ppc. rewrite G0, G1. cbn [bind].
  assert (Hn : exists st, ppval_1_nonan_two NaN (slice P k K) Sppc Tppc 0 = Ok st).
  { unfold ppval_1_nonan_two, locate_nonan. rewrite G0, G1. cbn [bind].
    destruct (slice P k K); cbn; eauto. }
  rewrite guess_to_bounds_all_nan; [reflexivity| | |].
  - unfold pot_dens_diff. rewrite (proj1 (Hv (ps k) ltac:(lra))). cbn [bind]. xsimp. rewrite He. cbn [bind].
    rewrite He. reflexivity.
  - unfold pot_dens_diff. rewrite (proj1 (Hv (ps (K-1)%nat) ltac:(lra))). cbn [bind]. xsimp. rewrite He. cbn [bind].
    rewrite He. reflexivity.
  - unfold pot_dens_diff. destruct Hn as ([s t] & ->). cbn [bind]. xsimp. rewrite He. cbn [bind].
    rewrite He. reflexivity.
Qed.
