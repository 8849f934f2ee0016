(** * Evaluation rules, PCHIP coefficients, pairs of variables *)
From Coq Require Import ZArith Bool Reals Lra Lia List.
From Verif Require Import Num XR Res Arr ArrLemmas XRlemmas M_ppinterp S_interp S_poly P_ppinterp P_pval
  P_pchip P_interp P_coeffs NumLaws.
Import ListNotations.
Local Open Scope R_scope.

(** ** C08: where NaN is returned and which piece is used *)
(** the arguments at which every evaluation function must give NaN *)
Definition outside (k K : nat) (xs : nat -> R) (x : xr) : Prop :=
  (K <= k + 1)%nat \/ x = NaN \/ x = PInf \/ x = NInf
  \/ (exists r, x = Fin r /\ (r < xs k \/ xs (K - 1)%nat < r)).

Section C08.
  Variables (X : list xr) (k K : nat) (xs ys : nat -> R).

  Lemma ppval_1_spec C x d :
    block X (last_col C) k K xs ys ->
    (outside k K xs x -> ppval_1 x X C d = Ok NaN)
    /\ forall r i c, x = Fin r -> in_piece k K xs r i -> nth_error C i = Some c ->
       ppval_1 x X C d = Ok (pval (Fin (r - xs i)) c d).
  Proof.
    intros HB. split.
    - intros H. unfold ppval_1. rewrite (locate_outside _ _ _ _ _ _ HB x H). reflexivity.
    - intros r i c -> Hi Hc. unfold ppval_1. rewrite (locate_piece _ _ _ _ _ _ HB r i Hi).
      cbn [bind]. destruct Hi as (A1 & A2 & _). rewrite (blk_getX _ _ _ _ _ _ HB) by lia.
      rewrite (get_ok _ _ _ Hc). reflexivity.
  Qed.

  Lemma ppinterp_1_spec f Y x d :
    block X Y k K xs ys ->
    (outside k K xs x -> ppinterp_1 f x X Y d = Ok NaN)
    /\ forall r i c, x = Fin r -> in_piece k K xs r i -> f X Y i = Ok c ->
       ppinterp_1 f x X Y d = Ok (pval (Fin (r - xs i)) c d).
  Proof.
    intros HB. split.
    - intros H. unfold ppinterp_1. rewrite (locate_outside _ _ _ _ _ _ HB x H). reflexivity.
    - intros r i c -> Hi Hc. unfold ppinterp_1. rewrite (locate_piece _ _ _ _ _ _ HB r i Hi).
      cbn [bind]. rewrite Hc. destruct Hi as (A1 & A2 & _). cbn [bind].
      rewrite (blk_getX _ _ _ _ _ _ HB) by lia. reflexivity.
  Qed.

  Lemma ppval_1_two_spec C D x d :
    block X (last_col C) k K xs ys ->
    (outside k K xs x -> ppval_1_two x X C D d = Ok (NaN, NaN))
    /\ forall r i c c', x = Fin r -> in_piece k K xs r i ->
       nth_error C i = Some c -> nth_error D i = Some c' ->
       ppval_1_two x X C D d = Ok (pval (Fin (r - xs i)) c d, pval (Fin (r - xs i)) c' d).
  Proof.
    intros HB. split.
    - intros H. unfold ppval_1_two. rewrite (locate_outside _ _ _ _ _ _ HB x H). reflexivity.
    - intros r i c c' -> Hi Hc Hc'. unfold ppval_1_two. rewrite (locate_piece _ _ _ _ _ _ HB r i Hi).
      cbn [bind]. destruct Hi as (A1 & A2 & _). rewrite (blk_getX _ _ _ _ _ _ HB) by lia.
      rewrite (get_ok _ _ _ Hc), (get_ok _ _ _ Hc'). reflexivity.
  Qed.

  Lemma ppinterp_1_two_spec f Y Z x d :
    block X Y k K xs ys ->
    (outside k K xs x -> ppinterp_1_two f x X Y Z d = Ok (NaN, NaN))
    /\ forall r i c c', x = Fin r -> in_piece k K xs r i -> f X Y i = Ok c -> f X Z i = Ok c' ->
       ppinterp_1_two f x X Y Z d = Ok (pval (Fin (r - xs i)) c d, pval (Fin (r - xs i)) c' d).
  Proof.
    intros HB. split.
    - intros H. unfold ppinterp_1_two. rewrite (locate_outside _ _ _ _ _ _ HB x H). reflexivity.
    - intros r i c c' -> Hi Hc Hc'. unfold ppinterp_1_two. rewrite (locate_piece _ _ _ _ _ _ HB r i Hi).
      cbn [bind]. rewrite Hc, Hc'. destruct Hi as (A1 & A2 & _). cbn [bind].
      rewrite (blk_getX _ _ _ _ _ _ HB) by lia. reflexivity.
  Qed.
End C08.

Lemma block_locate_total X Y k K xs ys x : block X Y k K xs ys ->
  outside k K xs x \/ exists r i, x = Fin r /\ in_piece k K xs r i.
Proof.
  intros HB. unfold outside. destruct x as [r| | |]; try tauto.
  destruct (Nat.le_gt_cases K (k + 1)); [tauto|].
  destruct (Rlt_dec r (xs k)); [left; do 4 right; eexists; split; [reflexivity|tauto]|].
  destruct (Rlt_dec (xs (K - 1)%nat) r); [left; do 4 right; eexists; split; [reflexivity|tauto]|].
  right. destruct (in_piece_exists _ _ _ _ _ _ HB r) as (i & Hi); [lia|lra|]. eauto.
Qed.

(** no valid data: NaN *)
Lemma no_data_nan X Y x d f : no_data X Y -> ppinterp_1 f x X Y d = Ok NaN.
Proof. intros H. unfold ppinterp_1. rewrite (no_data_locate X Y x H). reflexivity. Qed.
Lemma no_data_nan_ppval X C x d : no_data X (last_col C) -> ppval_1 x X C d = Ok NaN.
Proof. intros H. unfold ppval_1. rewrite (no_data_locate X _ x H). reflexivity. Qed.
Lemma no_data_nan_two X Y Z x d f : no_data X Y -> ppinterp_1_two f x X Y Z d = Ok (NaN, NaN).
Proof. intros H. unfold ppinterp_1_two. rewrite (no_data_locate X Y x H). reflexivity. Qed.
Lemma no_data_nan_ppval_two X C D x d : no_data X (last_col C) -> ppval_1_two x X C D d = Ok (NaN, NaN).
Proof. intros H. unfold ppval_1_two. rewrite (no_data_locate X _ x H). reflexivity. Qed.

(** when there are no NaN the variants without NaN handling agree *)
Lemma locate_nonan_same X Y xs ys x : block X Y 0 (length X) xs ys -> (1 < length X)%nat ->
  locate_nonan x X = locate x X Y.
Proof.
  intros HB H1. unfold locate_nonan, locate. rewrite (block_valid_range _ _ _ _ _ _ HB). cbn [bind].
  destruct (Nat.leb_spec (length X - 1) 0); [lia|]. cbn [orb].
  destruct (isnan x); [reflexivity|].
  rewrite !(blk_getX _ _ _ _ _ _ HB) by lia. cbn [bind].
  unfold slice. simpl skipn. rewrite Nat.sub_0_r, firstn_all, Nat.add_0_r. reflexivity.
Qed.

Lemma ppval_1_nonan_same X C xs ys x d : block X (last_col C) 0 (length X) xs ys -> (1 < length X)%nat ->
  ppval_1_nonan x X C d = ppval_1 x X C d.
Proof.
  intros HB H1. unfold ppval_1_nonan, ppval_1. rewrite (locate_nonan_same _ _ _ _ _ HB H1). reflexivity.
Qed.

Lemma ppval_1_nonan_two_same X C D xs ys x d : block X (last_col C) 0 (length X) xs ys -> (1 < length X)%nat ->
  ppval_1_nonan_two x X C D d = ppval_1_two x X C D d.
Proof.
  intros HB H1. unfold ppval_1_nonan_two, ppval_1_two. rewrite (locate_nonan_same _ _ _ _ _ HB H1). reflexivity.
Qed.

(** ** C14: pairs *)
Section Pairs.
  Context {F : Type} {N : Num F}.

  Definition same_nans (Y Z : list F) : Prop :=
    length Y = length Z /\
    forall i, (i < length Y)%nat ->
      isfinite (nth i Y nan) = isfinite (nth i Z nan) /\ isnan (nth i Y nan) = isnan (nth i Z nan).

  Lemma first_index_ext l (p q : nat -> res bool) dflt :
    (forall i, In i l -> p i = q i) -> first_index l p dflt = first_index l q dflt.
  Proof.
    induction l as [|a l IH]; simpl; intros H; [reflexivity|].
    rewrite H by auto. destruct (q a) as [[]|]; simpl; auto.
  Qed.

  Lemma valid_range_same (X Y Z : list F) : length X = length Y -> same_nans Y Z ->
    valid_range_1_two X Y = valid_range_1_two X Z.
  Proof.
    intros Hl [Hl' Hs]. unfold valid_range_1_two.
    rewrite (first_index_ext _ _ (fun i => let! x := get X i in
                if isfinite x then let! y := get Z i in Ok (isfinite y) else Ok false)).
    2:{ intros i Hi. apply in_seq in Hi. rewrite !(get_nth _ _ nan) by lia. cbn [bind].
        rewrite (proj1 (Hs i ltac:(lia))). reflexivity. }
    destruct (first_index _ _ _) as [k|]; [|reflexivity]. cbn [bind].
    rewrite (first_index_ext _ _ (fun i => let! x := get X i in
                if isnan x then Ok true else let! y := get Z i in Ok (isnan y))).
    2:{ intros i Hi. apply in_seq in Hi. rewrite !(get_nth _ _ nan) by lia. cbn [bind].
        rewrite (proj2 (Hs i ltac:(lia))). reflexivity. }
    reflexivity.
  Qed.

  Lemma locate_same x (X Y Z : list F) : length X = length Y -> same_nans Y Z ->
    locate x X Y = locate x X Z.
  Proof. intros Hl Hs. unfold locate. rewrite (valid_range_same X Y Z Hl Hs). reflexivity. Qed.

  Lemma ppinterp_1_two_pair f x (X Y Z : list F) d a b : length X = length Y -> same_nans Y Z ->
    (ppinterp_1_two f x X Y Z d = Ok (a, b)
     <-> ppinterp_1 f x X Y d = Ok a /\ ppinterp_1 f x X Z d = Ok b).
  Proof.
    intros Hl Hs. unfold ppinterp_1_two, ppinterp_1.
    rewrite <- (locate_same x X Y Z Hl Hs).
    destruct (locate x X Y) as [[i|]|]; cbn [bind].
    - destruct (f X Y i) as [cy|]; destruct (f X Z i) as [cz|]; destruct (get X i) as [xi|]; cbn [bind];
        split; try discriminate; try (intros [? ?]; discriminate).
      + intros E; injection E as <- <-; auto.
      + intros [E1 E2]; injection E1 as <-; injection E2 as <-; auto.
    - split; [intros E; injection E as <- <-; auto|].
      intros [E1 E2]; injection E1 as <-; injection E2 as <-; auto.
    - split; [discriminate|intros [? ?]; discriminate].
  Qed.

  Lemma ppval_1_two_pair x (X : list F) C D d a b :
    length X = length C -> same_nans (last_col C) (last_col D) ->
    (ppval_1_two x X C D d = Ok (a, b)
     <-> ppval_1 x X C d = Ok a /\ ppval_1 x X D d = Ok b).
  Proof.
    intros Hl Hs. unfold ppval_1_two, ppval_1.
    rewrite <- (locate_same x X (last_col C) (last_col D)); auto.
    2:{ unfold last_col. rewrite map_length. assumption. }
    destruct (locate x X (last_col C)) as [[i|]|]; cbn [bind].
    - destruct (get X i) as [xi|]; destruct (get C i) as [cy|]; destruct (get D i) as [cz|]; cbn [bind];
        split; try discriminate; try (intros [? ?]; discriminate).
      + intros E; injection E as <- <-; auto.
      + intros [E1 E2]; injection E1 as <-; injection E2 as <-; auto.
    - split; [intros E; injection E as <- <-; auto|].
      intros [E1 E2]; injection E1 as <-; injection E2 as <-; auto.
    - split; [discriminate|intros [? ?]; discriminate].
  Qed.
End Pairs.

(** ** C12: PCHIP coefficients are always computed *)
Section Coeffs.
  Variables (X Y : list xr) (k K : nat) (xs ys : nat -> R).
  Hypothesis HB : block X Y k K xs ys.

  Lemma pchip_coeffs_kK_ok junk : exists C, pchip_coeffs_kK junk X Y k K = Ok C.
  Proof.
    pose proof (blk_len _ _ _ _ _ _ HB) as Hl. pose proof (blk_K _ _ _ _ _ _ HB) as HK.
    pose proof (blk_kK _ _ _ _ _ _ HB) as HkK.
    assert (HneX : X <> []) by (intros ->; simpl in HK; lia).
    assert (HneY : Y <> []) by (intros ->; simpl in Hl; lia).
    unfold pchip_coeffs_kK.
    destruct (diff_1d_samesize_spec junk X HneX) as (h & Eh & Lh & _).
    destruct (diff_1d_samesize_spec junk Y HneY) as (dY & EdY & LdY & _).
    rewrite Eh, EdY. cbn [bind].
    set (δ := map (fun '(dy, hi) => div dy hi) (combine dY h)) in *.
    assert (Hh : forall i, (k <= i)%nat -> (i + 1 < K)%nat ->
       get h i = Ok (Fin (width xs i)) /\ get δ i = Ok (Fin (secant xs ys i))).
    { intros i Hi1 Hi2. destruct (get_diff junk X i ltac:(lia) h Eh) as [G1 _].
      destruct (get_diff junk Y i ltac:(lia) dY EdY) as [G2 _].
      rewrite (nth_error_nth _ _ nan (blk_X _ _ _ _ _ _ HB i ltac:(split; lia))) in G1.
      rewrite (nth_error_nth _ _ nan (blk_X _ _ _ _ _ _ HB (i + 1)%nat ltac:(split; lia))) in G1.
      rewrite (nth_error_nth _ _ nan (blk_Y _ _ _ _ _ _ HB i ltac:(split; lia))) in G2.
      rewrite (nth_error_nth _ _ nan (blk_Y _ _ _ _ _ _ HB (i + 1)%nat ltac:(split; lia))) in G2.
      replace (i + 1)%nat with (S i) in * by lia. split; [assumption|].
      apply get_ok. unfold δ. rewrite nth_error_map, nth_error_combine.
      rewrite (get_inv _ _ _ G1), (get_inv _ _ _ G2). cbn [option_map].
      pose proof (h_pos _ _ _ _ _ _ HB i Hi1 ltac:(lia)) as Hp. unfold width in Hp.
      cbn [sub xrNum xr_sub div]. rewrite xr_div_fin by lra. reflexivity. }
    destruct (Nat.ltb_spec 2 (K - k)) as [H2|H2].
    - assert (Hp : forall i, (k <= i)%nat -> (i + 1 < K)%nat -> 0 < width xs i).
      { intros. apply (h_pos _ _ _ _ _ _ HB); lia. }
      assert (Es : exists d, pchip_slopes h δ k K = Ok d /\ length d = K
                   /\ forall j, (k <= j < K)%nat -> nth_error d j = Some (Fin (pchip_slope k K xs ys j))).
      { unfold pchip_slopes.
        rewrite !(proj1 (Hh k ltac:(lia) ltac:(lia))), !(proj2 (Hh k ltac:(lia) ltac:(lia))).
        rewrite !(proj1 (Hh (k + 1)%nat ltac:(lia) ltac:(lia))), !(proj2 (Hh (k + 1)%nat ltac:(lia) ltac:(lia))).
        cbn [bind]. rewrite pchip_end_real by (apply Hp; lia). cbn [bind].
        rewrite set_ok by (rewrite repeat_length; lia). cbn [bind].
        match goal with |- context [for_range ?a ?b ?body ?d] =>
          destruct (for_range_fill body
            (fun i => Fin (pchip_slope k K xs ys i)) a b d)
            as (d1 & E1 & L1 & Hin & Hout) end.
        { lia. } { rewrite length_upd, repeat_length. lia. }
        { intros i e Hi _.
          rewrite !(proj1 (Hh i ltac:(lia) ltac:(lia))), !(proj2 (Hh i ltac:(lia) ltac:(lia))).
          rewrite !(proj1 (Hh (i - 1)%nat ltac:(lia) ltac:(lia))), !(proj2 (Hh (i - 1)%nat ltac:(lia) ltac:(lia))).
          cbn [bind]. rewrite pchip_mid_real by (apply Hp; lia). cbn [bind].
          rewrite slope_inner by lia. reflexivity. }
        rewrite E1. cbn [bind].
        rewrite !(proj1 (Hh (K - 2)%nat ltac:(lia) ltac:(lia))), !(proj2 (Hh (K - 2)%nat ltac:(lia) ltac:(lia))).
        rewrite !(proj1 (Hh (K - 3)%nat ltac:(lia) ltac:(lia))), !(proj2 (Hh (K - 3)%nat ltac:(lia) ltac:(lia))).
        cbn [bind]. rewrite pchip_end_real by (apply Hp; lia). cbn [bind].
        rewrite length_upd, repeat_length in L1.
        rewrite set_ok by lia. eexists. split; [reflexivity|]. rewrite length_upd. split; [assumption|].
        intros j Hj. destruct (Nat.eq_dec j (K - 1)) as [->|HjK].
        - rewrite nth_error_upd_eq by lia. rewrite slope_last by lia. reflexivity.
        - rewrite nth_error_upd_neq by lia. destruct (Nat.eq_dec j k) as [->|Hjk].
          + rewrite Hout by lia. rewrite nth_error_upd_eq by (rewrite repeat_length; lia).
            rewrite slope_first by lia. reflexivity.
          + apply Hin. lia. }
      destruct Es as (d & Es & Ld & Hd). rewrite Es. cbn [bind].
      match goal with |- context [for_range ?a ?b ?body ?c] =>
        destruct (for_range_inv (fun _ (C : list (xr * xr * xr)) => length C = length X) a b body c)
          as (C & EC & LC) end.
      { lia. } { rewrite repeat_length. reflexivity. }
      { intros i C Hi LC.
        rewrite (proj1 (Hh i ltac:(lia) ltac:(lia))), (proj2 (Hh i ltac:(lia) ltac:(lia))). cbn [bind].
        rewrite (get_ok _ _ _ (Hd i ltac:(lia))), (get_ok _ _ _ (Hd (i + 1)%nat ltac:(lia))). cbn [bind].
        unfold pchip_piece. pose proof (Hp i ltac:(lia) ltac:(lia)).
        xsimp. rewrite !sdiv_fin by lra. xsimp. rewrite sdiv_fin by lra. cbn [bind].
        rewrite set_ok by lia. eexists. split; [reflexivity|]. rewrite length_upd. assumption. }
      rewrite EC. cbn [bind]. eexists. reflexivity.
    - destruct (Nat.eqb_spec (K - k) 2) as [H2'|H2'].
      + rewrite !(blk_getX _ _ _ _ _ _ HB), !(blk_getY _ _ _ _ _ _ HB) by lia. xsimp.
        pose proof (h_pos _ _ _ _ _ _ HB k ltac:(lia) ltac:(lia)) as Hp. unfold width in Hp.
        replace (k + 1)%nat with (S k) by lia. rewrite sdiv_fin by lra. cbn [bind].
        rewrite set_ok by (rewrite repeat_length; lia). cbn [bind]. eexists. reflexivity.
      + cbn [bind]. eexists. reflexivity.
  Qed.

  Lemma pchip_coeffs_1_ok junk : exists C, pchip_coeffs_1 junk X Y = Ok C.
  Proof.
    unfold pchip_coeffs_1. rewrite (block_valid_range _ _ _ _ _ _ HB). cbn [bind].
    apply pchip_coeffs_kK_ok.
  Qed.

  Lemma pchip_interp_1_ok x d : exists y, pchip_interp_1 x X Y d = Ok y.
  Proof.
    destruct (block_locate_total _ _ _ _ _ _ x HB) as [Ho|(r & i & -> & Hi)].
    - exists NaN. apply (ppinterp_1_spec _ _ _ _ _ _ _ _ _ HB). assumption.
    - destruct Hi as (A1 & A2 & A3) eqn:E.
      eexists. unfold pchip_interp_1. 
      rewrite (ppinterp_piece _ _ _ _ _ _ HB pchip_coeffs_i (pch_c k K xs ys i) r i d Hi); [reflexivity|].
      apply (pchip_coeffs_real _ _ _ _ _ _ HB); assumption.
  Qed.

  Lemma linear_interp_1_ok x d : exists y, linear_interp_1 x X Y d = Ok y.
  Proof.
    destruct (block_locate_total _ _ _ _ _ _ x HB) as [Ho|(r & i & -> & Hi)].
    - exists NaN. apply (ppinterp_1_spec _ _ _ _ _ _ _ _ _ HB). assumption.
    - destruct Hi as (A1 & A2 & A3) eqn:E.
      eexists. unfold linear_interp_1.
      rewrite (ppinterp_piece _ _ _ _ _ _ HB linear_coeffs_i (lin_c xs ys i) r i d Hi); [reflexivity|].
      apply (linear_coeffs_real _ _ _ _ _ _ HB); assumption.
  Qed.
End Coeffs.

Lemma no_data_pchip_coeffs X Y junk : no_data X Y -> X <> [] ->
  exists C, pchip_coeffs_1 junk X Y = Ok C /\ length C = length X.
Proof.
  intros [Hl Hd] Hne. unfold pchip_coeffs_1.
  destruct (valid_range_1_two_spec X Y) as (k & K & E & H1 & H2 & H3 & H4 & H5); [lia|].
  assert (k = length X).
  { destruct (Nat.eq_dec k (length X)) as [|Hk]; [assumption|].
    destruct (H3 ltac:(lia)) as (A1 & A2 & A3).
    destruct (Hd k ltac:(lia)) as [A|A]; apply nth_error_nth with (d := nan) in A;
      rewrite A in *; discriminate. }
  rewrite E. cbn [bind]. unfold pchip_coeffs_kK.
  assert (HneY : Y <> []) by (destruct X, Y; simpl in *; congruence).
  destruct (diff_1d_samesize_spec junk X Hne) as (h & Eh & Lh & _).
  destruct (diff_1d_samesize_spec junk Y HneY) as (dY & EdY & LdY & _).
  rewrite Eh, EdY. cbn [bind]. replace (K - k)%nat with 0%nat by lia. simpl.
  eexists. split; [reflexivity|]. rewrite map_length, combine_length, repeat_length. lia.
Qed.

(** the linear and PCHIP interpolants and their relation to the model *)
Section Final.
  Variables (X Y : list xr) (k K : nat) (xs ys : nat -> R).
  Hypothesis HB : block X Y k K xs ys.
  Hypothesis H2 : (k + 1 < K)%nat.

  Lemma linear_final :
    exists g : R -> R,
      (forall x, xs k <= x <= xs (K - 1)%nat -> linear_interp_1 (Fin x) X Y 0 = Ok (Fin (g x)))
      /\ (forall j, (k <= j < K)%nat -> g (xs j) = ys j)
      /\ (forall x, continuity_pt g x)
      /\ (forall x i, in_piece k K xs x i ->
            g x = ys i + (x - xs i) * ((ys (S i) - ys i) / (xs (S i) - xs i))
            /\ Rmin (ys i) (ys (S i)) <= g x <= Rmax (ys i) (ys (S i))
            /\ linear_interp_1 (Fin x) X Y 1 = Ok (Fin ((ys (S i) - ys i) / (xs (S i) - xs i)))
            /\ forall d, linear_interp_1 (Fin x) X Y (S (S d)) = Ok (Fin 0)).
  Proof.
    exists (interpolant k K xs (lin_c xs ys) 0).
    assert (Hc : forall i, (k <= i)%nat -> (S i < K)%nat -> linear_coeffs_i X Y i = Ok (map Fin (lin_c xs ys i))).
    { intros. apply (linear_coeffs_real _ _ _ _ _ _ HB); assumption. }
    split; [|split; [|split]].
    - intros x Hx. apply (ppinterp_interpolant _ _ _ _ _ _ HB); assumption.
    - intros j Hj. apply (interpolant_knot _ _ _ _ _ _ HB (lin_c xs ys) ys); auto.
      + intros. apply lin_left.
      + intros. apply (lin_right _ _ _ _ _ _ HB); assumption.
    - apply (interpolant_continuous _ _ _ _ _ _ HB). intros.
      rewrite lin_left. apply (lin_right _ _ _ _ _ _ HB); lia.
    - intros x i Hi. rewrite (interpolant_piece _ _ _ _ _ _ HB _ _ x i Hi).
      destruct Hi as (A1 & A2 & A3 & A4) eqn:Ei.
      split; [apply lin_val|]. split; [apply (lin_between _ _ _ _ _ _ HB); assumption|].
      split.
      + unfold linear_interp_1. rewrite (ppinterp_piece _ _ _ _ _ _ HB _ (lin_c xs ys i) x i 1 Hi) by (apply Hc; assumption).
        rewrite lin_der. reflexivity.
      + intros d. unfold linear_interp_1.
        rewrite (ppinterp_piece _ _ _ _ _ _ HB _ (lin_c xs ys i) x i _ Hi) by (apply Hc; assumption).
        rewrite lin_der2. reflexivity.
  Qed.

  Lemma pchip_final :
    exists g g' : R -> R,
      (forall x, xs k <= x <= xs (K - 1)%nat ->
         pchip_interp_1 (Fin x) X Y 0 = Ok (Fin (g x))
         /\ pchip_interp_1 (Fin x) X Y 1 = Ok (Fin (g' x)))
      /\ (forall x, derivable_pt_lim g x (g' x))
      /\ (forall x, continuity_pt g' x)
      /\ (forall j, (k <= j < K)%nat -> g (xs j) = ys j)
      /\ (forall j, (k <= j < K)%nat -> g' (xs j) = pchip_slope k K xs ys j)
      /\ (forall i x x', (k <= i)%nat -> (S i < K)%nat -> xs i <= x -> x <= x' -> x' <= xs (S i) ->
            Rmin (ys i) (ys (S i)) <= g x <= Rmax (ys i) (ys (S i))
            /\ 0 <= (ys (S i) - ys i) * (g x' - g x)).
  Proof.
    set (c := pch_c k K xs ys).
    exists (interpolant k K xs c 0), (interpolant k K xs c 1).
    assert (Hc : forall i, (k <= i)%nat -> (S i < K)%nat -> pchip_coeffs_i X Y i = Ok (map Fin (c i))).
    { intros. apply (pchip_coeffs_real _ _ _ _ _ _ HB); assumption. }
    assert (E0 : forall i, (k <= i)%nat -> (S (S i) < K)%nat ->
       pval (xs (S i) - xs i) (c i) 0 = pval (xs (S i) - xs (S i)) (c (S i)) 0).
    { intros. unfold c. rewrite pch_left. apply (pch_right _ _ _ _ _ _ HB); lia. }
    assert (E1 : forall i, (k <= i)%nat -> (S (S i) < K)%nat ->
       pval (xs (S i) - xs i) (c i) 1 = pval (xs (S i) - xs (S i)) (c (S i)) 1).
    { intros. unfold c. rewrite pch_dleft. apply (pch_dright _ _ _ _ _ _ HB); lia. }
    assert (Hval : forall i x, (k <= i)%nat -> (S i < K)%nat -> xs i <= x <= xs (S i) ->
       interpolant k K xs c 0 x = pval (x - xs i) (c i) 0).
    { intros i x Hi1 Hi2 Hx. destruct (Req_dec x (xs i)) as [->|Hne].
      - rewrite (interpolant_knot _ _ _ _ _ _ HB c ys 0 i H2); try lia.
        + symmetry. apply pch_left.
        + intros. apply pch_left.
        + intros. apply (pch_right _ _ _ _ _ _ HB); assumption.
      - apply (interpolant_piece _ _ _ _ _ _ HB). repeat split; try lia; try lra. }
    split; [|split; [|split; [|split; [|split]]]].
    - intros x Hx. split; apply (ppinterp_interpolant _ _ _ _ _ _ HB); assumption.
    - apply (interpolant_derivable _ _ _ _ _ _ HB); assumption.
    - apply (interpolant_continuous _ _ _ _ _ _ HB); assumption.
    - intros j Hj. apply (interpolant_knot _ _ _ _ _ _ HB c ys); auto.
      + intros. apply pch_left.
      + intros. apply (pch_right _ _ _ _ _ _ HB); assumption.
    - intros j Hj. apply (interpolant_knot _ _ _ _ _ _ HB c (pchip_slope k K xs ys)); auto.
      + intros. apply pch_dleft.
      + intros. apply (pch_dright _ _ _ _ _ _ HB); assumption.
    - intros i x x' Hi1 Hi2 Hx1 Hx2 Hx3. rewrite !(Hval i) by (assumption || lra).
      split.
      + apply (pch_between _ _ _ _ _ _ HB); auto; lra.
      + apply (pch_mono _ _ _ _ _ _ HB); auto.
  Qed.

  Lemma pchip_shape i x x' : (k <= i)%nat -> (S i < K)%nat -> xs i <= x -> x <= x' -> x' <= xs (S i) ->
    exists v v', pchip_interp_1 (Fin x) X Y 0 = Ok (Fin v) /\ pchip_interp_1 (Fin x') X Y 0 = Ok (Fin v')
      /\ Rmin (ys i) (ys (S i)) <= v <= Rmax (ys i) (ys (S i))
      /\ (ys i <= ys (S i) -> v <= v') /\ (ys (S i) <= ys i -> v' <= v).
  Proof.
    intros A1 A2 A3 A4 A5.
    destruct pchip_final as (g & g' & E & _ & _ & _ & _ & Hs).
    pose proof (blk_mono_le _ _ _ _ _ _ HB k i ltac:(lia) A1 ltac:(lia)).
    pose proof (blk_mono_le _ _ _ _ _ _ HB (S i) (K - 1) ltac:(lia) ltac:(lia) ltac:(lia)).
    exists (g x), (g x'). split; [apply E; lra|]. split; [apply E; lra|].
    destruct (Hs i x x' A1 A2 A3 A4 A5) as [Hb Hm]. split; [assumption|].
    destruct (Hs i x' x' A1 A2 ltac:(lra) ltac:(lra) A5) as [Hb' _].
    destruct (Req_dec (ys i) (ys (S i))) as [E0|Hne].
    - rewrite E0, Rmin_left, Rmax_left in Hb, Hb' by lra. lra.
    - split; intros; nra.
  Qed.
End Final.

Lemma block_regular X Y k K xs ys : block X Y k K xs ys ->
  (forall i, (i < length X)%nat -> nth_error X i <> Some PInf /\ nth_error X i <> Some NInf) -> regular X.
Proof.
  intros _ H i Hi. destruct (H i Hi) as [A B].
  rewrite (nth_error_nth' X nan Hi) in A, B. destruct (nth i X nan); try reflexivity; congruence.
Qed.
