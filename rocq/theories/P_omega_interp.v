(** * The interpolation functions give water of the column *)
From Coq Require Import ZArith List Bool Lia Reals Lra.
From Verif Require Import Num XR Res Arr ArrLemmas XRlemmas M_ppinterp S_interp S_traj S_vertsolve S_omega
  P_ppinterp P_pval P_pchip P_interp P_interp2 P_domain P_traj.
Import ListNotations.
Local Open Scope R_scope.

Section General.
  Variable f : list xr -> list xr -> nat -> res (list xr).
  Variable rel : nat -> (nat -> R) -> (nat -> R) -> (R -> R) -> Prop.
  Variable c : nat -> nat -> (nat -> R) -> (nat -> R) -> nat -> list R.
  Hypothesis Hf : forall X Y k K xs ys, block X Y k K xs ys -> forall i, (k <= i)%nat -> (S i < K)%nat ->
    f X Y i = Ok (map Fin (c k K xs ys i)).
  Hypothesis Hrel : forall X Y k K xs ys, block X Y k K xs ys -> (k + 1 < K)%nat ->
    rel (K - k)%nat (from k xs) (from k ys) (interpolant k K xs (c k K xs ys) 0)
    /\ (forall x, continuity_pt (interpolant k K xs (c k K xs ys) 0) x)
    /\ within (K - k)%nat (from k xs) (from k ys) (interpolant k K xs (c k K xs ys) 0).

  Lemma inside_ok Sc Tc Pc k K ss ts ps r i : cast Sc Tc Pc k K ss ts ps -> same_extent (Sc, Tc, Pc) -> in_piece k K ps r i ->
    exists s t, ppinterp_1_two f (Fin r) Pc Sc Tc 0 = Ok (Fin s, Fin t) /\ on_cast rel (Sc, Tc, Pc) (Fin s, Fin t, Fin r).
  Proof.
    intros HC Hex Hi. pose proof (cast_blk _ _ _ _ _ _ _ _ HC) as HB. pose proof (Hex _ _ _ _ _ HC) as HT.
    pose proof Hi as (A1 & A2 & A3 & _).
    destruct (ppinterp_1_two_spec Pc k K ps ss f Sc Tc (Fin r) 0 HB) as [_ H].
    specialize (H r i _ _ eq_refl Hi (Hf _ _ _ _ _ _ HB i A1 A2) (Hf _ _ _ _ _ _ HT i A1 A2)).
    rewrite !pval_fin in H. do 2 eexists. split; [exact H|].
    rewrite <- (interpolant_piece _ _ _ _ _ _ HB (c k K ps ss) 0 r i Hi), <- (interpolant_piece _ _ _ _ _ _ HB (c k K ps ts) 0 r i Hi).
    destruct (Hrel _ _ _ _ _ _ HB ltac:(lia)) as (R1 & C1 & W1). destruct (Hrel _ _ _ _ _ _ HT ltac:(lia)) as (R2 & C2 & W2).
    eexists _, _, (ps k), (ps (K - 1)%nat), r. split; [|split; [|reflexivity]].
    - constructor; [|assumption..]. exists k, K, ss, ts, ps. split; [assumption|]. split; [lia|]. auto 10.
    - split.
      + apply Rle_trans with (ps i); [|lra]. destruct (Nat.eq_dec i k) as [->|]; [lra|]. left. apply (blk_mono _ _ _ _ _ _ HB); lia.
      + apply Rle_trans with (ps (S i)); [lra|]. destruct (Nat.eq_dec (S i) (K - 1)) as [->|]; [lra|]. left. apply (blk_mono _ _ _ _ _ _ HB); lia.
  Qed.

  Lemma column_interp_ppinterp : column_interp rel (fun p P S T => ppinterp_1_two f p P S T 0).
  Proof.
    split.
    - intros Sc Tc Pc p Hany Hex.
      assert (Hn : forall k K ss ps, block Pc Sc k K ps ss -> outside k K ps p -> exists s t, ppinterp_1_two f p Pc Sc Tc 0 = Ok (s, t) /\ (isnan s = true \/ on_cast rel (Sc, Tc, Pc) (s, t, p))).
      { intros k K ss ps HB Ho. exists NaN, NaN. split; [|left; reflexivity]. apply (ppinterp_1_two_spec Pc k K ps ss f Sc Tc p 0 HB). assumption. }
      destruct Hany as [[Hno|(k & ps & ss & HB)]|(k & K & ss & ts & ps & HC & HK)].
      + exists NaN, NaN. split; [apply no_data_nan_two; assumption|left; reflexivity].
      + apply (Hn _ _ _ _ HB). unfold outside. left. lia.
      + destruct (block_locate_total _ _ _ _ _ _ p (cast_blk _ _ _ _ _ _ _ _ HC)) as [Ho|(r & i & -> & Hi)].
        * apply (Hn _ _ _ _ (cast_blk _ _ _ _ _ _ _ _ HC)). assumption.
        * destruct (inside_ok _ _ _ _ _ _ _ _ _ _ HC Hex Hi) as (s & t & E & H). exists (Fin s), (Fin t). auto.
    - intros Sc Tc Pc k K ss ts ps r HC Hex HK Hr.
      destruct (in_piece_exists _ _ _ _ _ _ (cast_blk _ _ _ _ _ _ _ _ HC) r HK Hr) as (i & Hi).
      destruct (inside_ok _ _ _ _ _ _ _ _ _ _ HC Hex Hi) as (s & t & E & _). exists (Fin s), (Fin t). auto.
  Qed.
End General.

Lemma in_piece_shift k K xs x i : in_piece 0 (K - k) (from k xs) x i -> in_piece k K xs x (k + i).
Proof. unfold in_piece, from. replace (k + S i)%nat with (S (k + i)) by lia. intros (A1 & A2 & A3 & A4).
  split; [lia|]. split; [lia|]. split; [lra|]. destruct A4; [left; lia|right; assumption]. Qed.
Lemma secant_shift k xs ys i : secant (from k xs) (from k ys) i = secant xs ys (k + i).
Proof. unfold secant, from. replace (k + S i)%nat with (S (k + i)) by lia. reflexivity. Qed.
Lemma width_shift k xs i : width (from k xs) i = width xs (k + i).
Proof. unfold width, from. replace (k + S i)%nat with (S (k + i)) by lia. reflexivity. Qed.
Lemma slope_shift k K xs ys i : (k + 1 < K)%nat -> (k + i < K)%nat -> pchip_slope 0 (K - k) (from k xs) (from k ys) i = pchip_slope k K xs ys (k + i).
Proof.
  intros HK Hi. unfold pchip_slope. rewrite !secant_shift, !width_shift. replace (K - k - 0)%nat with (K - k)%nat by lia.
  destruct (Nat.eqb_spec (K - k) 2); [f_equal; lia|].
  replace (Nat.eqb (k + i) k) with (Nat.eqb i 0) by (destruct (Nat.eqb_spec i 0), (Nat.eqb_spec (k + i) k); lia || reflexivity).
  replace (Nat.eqb (k + i) (K - 1)) with (Nat.eqb i (K - k - 1)) by (destruct (Nat.eqb_spec i (K - k - 1)), (Nat.eqb_spec (k + i) (K - 1)); lia || reflexivity).
  replace (k + 0)%nat with k by lia. replace (k + (0 + 1))%nat with (k + 1)%nat by lia.
  destruct (Nat.eqb_spec i 0); [reflexivity|].
  destruct (Nat.eqb_spec i (K - k - 1)).
  - replace (k + (K - k - 2))%nat with (K - 2)%nat by lia. replace (k + (K - k - 3))%nat with (K - 3)%nat by lia. reflexivity.
  - replace (k + (i - 1))%nat with (k + i - 1)%nat by lia. reflexivity.
Qed.

Lemma within_from X Y k K xs ys g : block X Y k K xs ys -> (k + 1 < K)%nat ->
  (forall x i, in_piece k K xs x i -> Rmin (ys i) (ys (S i)) <= g x <= Rmax (ys i) (ys (S i))) ->
  within (K - k)%nat (from k xs) (from k ys) g.
Proof.
  intros HB HK Hg C HC Hy x Hx. unfold from in *. replace (k + 0)%nat with k in Hx by lia. replace (k + (K - k - 1))%nat with (K - 1)%nat in Hx by lia.
  destruct (in_piece_exists _ _ _ _ _ _ HB x HK Hx) as (i & Hi). pose proof Hi as (A1 & A2 & _).
  apply (interval_minmax C (ys i) (ys (S i))); auto.
  - specialize (Hy (i - k)%nat ltac:(lia)). replace (k + (i - k))%nat with i in Hy by lia. assumption.
  - specialize (Hy (S i - k)%nat ltac:(lia)). replace (k + (S i - k))%nat with (S i) in Hy by lia. assumption.
Qed.

Lemma linear_column_interp : column_interp linear_fun (fun p P S T => linear_interp_1_two p P S T 0).
Proof.
  apply column_interp_ppinterp with (c := fun k K xs ys => lin_c xs ys).
  - intros X Y k K xs ys HB. apply (linear_coeffs_real _ _ _ _ _ _ HB).
  - intros X Y k K xs ys HB HK. split; [|split].
    + intros x i Hi. rewrite (interpolant_piece _ _ _ _ _ _ HB _ _ x (k + i) (in_piece_shift _ _ _ _ _ Hi)), lin_val, secant_shift. reflexivity.
    + apply (interpolant_continuous _ _ _ _ _ _ HB). intros. rewrite lin_left. apply (lin_right _ _ _ _ _ _ HB); lia.
    + apply (within_from _ _ _ _ _ _ _ HB HK). intros x i Hi. rewrite (interpolant_piece _ _ _ _ _ _ HB _ _ x i Hi).
      destruct Hi as (A1 & A2 & A3 & _). apply (lin_between _ _ _ _ _ _ HB); assumption.
Qed.

Lemma pchip_column_interp : column_interp pchip_fun (fun p P S T => pchip_interp_1_two p P S T 0).
Proof.
  apply column_interp_ppinterp with (c := pch_c).
  - intros X Y k K xs ys HB. apply (pchip_coeffs_real _ _ _ _ _ _ HB).
  - intros X Y k K xs ys HB HK. split; [|split].
    + intros x i Hi. pose proof (in_piece_shift _ _ _ _ _ Hi) as Hi'. rewrite (interpolant_piece _ _ _ _ _ _ HB _ _ x (k + i) Hi').
      destruct Hi' as (A1 & A2 & _). pose proof (h_pos _ _ _ _ _ _ HB _ A1 A2) as Hh. unfold pch_c. rewrite cubic_val by lra. cbv zeta.
      rewrite secant_shift, width_shift, !slope_shift by lia. replace (k + S i)%nat with (S (k + i)) by lia. unfold from.
      set (h := width xs (k + i)) in *. field. lra.
    + apply (interpolant_continuous _ _ _ _ _ _ HB). intros. rewrite pch_left. apply (pch_right _ _ _ _ _ _ HB); lia.
    + apply (within_from _ _ _ _ _ _ _ HB HK). intros x i Hi. rewrite (interpolant_piece _ _ _ _ _ _ HB _ _ x i Hi).
      destruct Hi as (A1 & A2 & A3 & _). apply (pch_between _ _ _ _ _ _ HB); assumption.
Qed.
