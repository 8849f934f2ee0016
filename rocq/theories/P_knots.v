(** * Piecewise polynomials by their values at the knots *)
From Coq Require Import Reals List.
From Verif Require Import Num XR Res Arr M_ppinterp S_interp S_args P_interp P_interp2 P_args.
Import ListNotations.

Lemma ppval_knots :
  forall (X : list xr) (k K : nat) (xs ys : nat -> R) (C : list (list xr)) (Y : list xr) (x : xr) (d : nat),
    knot_values C Y -> block X Y k K xs ys ->
    (outside k K xs x -> ppval_1 x X C d = Ok NaN)
    /\ forall r i c, x = Fin r -> in_piece k K xs r i -> nth_error C i = Some c ->
       ppval_1 x X C d = Ok (pval (Fin (r - xs i)) c d).
Proof. intros X k K xs ys C Y x d HC HB. apply knots_last in HC. rewrite <- HC in HB. apply ppval_1_spec with (1 := HB). Qed.
Lemma ppval_two_knots :
  forall (X : list xr) (k K : nat) (xs ys : nat -> R) (C D : list (list xr)) (Y : list xr) (x : xr) (d : nat),
    knot_values C Y -> block X Y k K xs ys ->
    (outside k K xs x -> ppval_1_two x X C D d = Ok (NaN, NaN))
    /\ forall r i c c', x = Fin r -> in_piece k K xs r i ->
       nth_error C i = Some c -> nth_error D i = Some c' ->
       ppval_1_two x X C D d = Ok (pval (Fin (r - xs i)) c d, pval (Fin (r - xs i)) c' d).
Proof. intros X k K xs ys C D Y x d HC HB. apply knots_last in HC. rewrite <- HC in HB. apply ppval_1_two_spec with (1 := HB). Qed.
Lemma no_data_all :
  forall (X Y Z : list xr) (C D : list (list xr)) (x : xr) (d : nat)
    (f : list xr -> list xr -> nat -> res (list xr)),
    (no_data X Y -> ppinterp_1 f x X Y d = Ok NaN /\ ppinterp_1_two f x X Y Z d = Ok (NaN, NaN))
    /\ (knot_values C Y -> no_data X Y -> ppval_1 x X C d = Ok NaN /\ ppval_1_two x X C D d = Ok (NaN, NaN)).
Proof.
  intros X Y Z C D x d f. split; [intros H; split; [exact (no_data_nan X Y x d f H)|exact (no_data_nan_two X Y Z x d f H)]|].
  intros HC H. apply knots_last in HC. rewrite <- HC in H. split; [exact (no_data_nan_ppval X C x d H)|exact (no_data_nan_ppval_two X C D x d H)].
Qed.
Lemma nonan_same :
  forall (X : list xr) (C D : list (list xr)) (Y : list xr) (xs ys : nat -> R) (x : xr) (d : nat),
    knot_values C Y -> block X Y 0 (length X) xs ys -> (1 < length X)%nat ->
    ppval_1_nonan x X C d = ppval_1 x X C d
    /\ ppval_1_nonan_two x X C D d = ppval_1_two x X C D d.
Proof.
  intros X C D Y xs ys x d HC HB H. apply knots_last in HC. rewrite <- HC in HB.
  split; [exact (ppval_1_nonan_same X C xs ys x d HB H)|exact (ppval_1_nonan_two_same X C D xs ys x d HB H)].
Qed.
Lemma ppval_two_pair :
  forall (F : Type) (N : Num F) (x : F) (X : list F) (C D : list (list F)) (Y Z : list F) (d : nat) (a b : F),
    length X = length C -> knot_values C Y -> knot_values D Z -> same_nans Y Z ->
    (ppval_1_two x X C D d = Ok (a, b)
     <-> ppval_1 x X C d = Ok a /\ ppval_1 x X D d = Ok b).
Proof. intros F N x X C D Y Z d a b L HC HD H. apply knots_last in HC, HD. rewrite <- HC, <- HD in H. apply ppval_1_two_pair; assumption. Qed.
