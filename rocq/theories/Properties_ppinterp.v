(** * Properties C06-C16: piecewise polynomial interpolation (ppinterp/) *)
From Coq Require Import String ZArith Bool Reals Lra Lia List.
From Coquelicot Require Import Coquelicot.
From Verif Require Import Num XR SF Res Arr XRlemmas M_ppinterp M_make_pp S_interp S_poly S_make_pp
  P_ppinterp P_pval P_interp P_coeffs NumLaws P_interp2 P_make_pp S_args P_knots Ex_ppinterp.
Import ListNotations.
Local Open Scope R_scope.

(** ** C06  Valid data range, in any arithmetic *)
Theorem C06_valid_range_1 :
  forall (F : Type) (N : Num F) (X : list F),
    exists k K, valid_range_1 X = Ok (k, K)
      /\ (k <= K <= length X)%nat
      /\ (forall i, (i < k)%nat -> isfinite (nth i X nan) = false)
      /\ ((k < length X)%nat -> isfinite (nth k X nan) = true /\ (k < K)%nat)
      /\ (forall i, (k < i < K)%nat -> isnan (nth i X nan) = false)
      /\ ((K < length X)%nat -> isnan (nth K X nan) = true /\ (k < K)%nat).
Proof. exact @valid_range_1_spec. Qed.
Print Assumptions C06_valid_range_1.

Theorem C06_valid_range_1_two :
  forall (F : Type) (N : Num F) (X Y : list F), (length X <= length Y)%nat ->
    exists k K, valid_range_1_two X Y = Ok (k, K)
      /\ (k <= K <= length X)%nat
      /\ (forall i, (i < k)%nat -> isfinite (nth i X nan) = false \/ isfinite (nth i Y nan) = false)
      /\ ((k < length X)%nat -> isfinite (nth k X nan) = true /\ isfinite (nth k Y nan) = true /\ (k < K)%nat)
      /\ (forall i, (k < i < K)%nat -> isnan (nth i X nan) = false /\ isnan (nth i Y nan) = false)
      /\ ((K < length X)%nat -> (isnan (nth K X nan) = true \/ isnan (nth K Y nan) = true) /\ (k < K)%nat).
Proof. exact @valid_range_1_two_spec. Qed.
Print Assumptions C06_valid_range_1_two.

(** The docstring: "If X[i] is NaN for all i > k, then K = len(X)" is false. *)
Theorem C06_valid_range_doc_refuted :
  exists (X : list f64) k K, valid_range_1 X = Ok (k, K)
    /\ (forall i, (k < i < length X)%nat -> isnan (nth i X nan) = true)
    /\ (k < length X)%nat /\ K <> length X.
Proof. exact valid_range_doc. Qed.
Print Assumptions C06_valid_range_doc_refuted.

Example C06_ex : valid_range_1_two exX exY = Ok (1%nat, 4%nat).
Proof. exact (block_valid_range _ _ _ _ _ _ ex_block). Qed.

(** ** C07  [pval] is the d-th derivative of the polynomial *)
Theorem C07_pval_derivative :
  forall (C : list R) (d : nat) (x : R),
    is_derive_n (poly C) d x (pval x C d) /\ pval x C d = Derive_n (poly C) d x.
Proof. exact pval_derivative. Qed.
Print Assumptions C07_pval_derivative.

(** the same for the extended numbers used in the other theorems *)
Theorem C07_pval_finite :
  forall (x : R) (C : list R) (d : nat), pval (Fin x) (map Fin C) d = Fin (pval x C d).
Proof. exact pval_fin. Qed.
Print Assumptions C07_pval_finite.

Example C07_ex : pval 2 [5; 0; 3; 1] 1 = 63.
Proof. unfold pval; simpl. unfold Rlit; simpl. lra. Qed.

(** ** C08  Where NaN is returned, and which piece is evaluated *)
Theorem C08_ppval_1 :
  forall (X : list xr) (k K : nat) (xs ys : nat -> R) (C : list (list xr)) (Y : list xr) (x : xr) (d : nat),
    knot_values C Y -> block X Y k K xs ys ->
    (outside k K xs x -> ppval_1 x X C d = Ok NaN)
    /\ forall r i c, x = Fin r -> in_piece k K xs r i -> nth_error C i = Some c ->
       ppval_1 x X C d = Ok (pval (Fin (r - xs i)) c d).
Proof. exact ppval_knots. Qed.
Print Assumptions C08_ppval_1.

Theorem C08_ppval_1_two :
  forall (X : list xr) (k K : nat) (xs ys : nat -> R) (C D : list (list xr)) (Y : list xr) (x : xr) (d : nat),
    knot_values C Y -> block X Y k K xs ys ->
    (outside k K xs x -> ppval_1_two x X C D d = Ok (NaN, NaN))
    /\ forall r i c c', x = Fin r -> in_piece k K xs r i ->
       nth_error C i = Some c -> nth_error D i = Some c' ->
       ppval_1_two x X C D d = Ok (pval (Fin (r - xs i)) c d, pval (Fin (r - xs i)) c' d).
Proof. exact ppval_two_knots. Qed.
Print Assumptions C08_ppval_1_two.

Theorem C08_ppinterp_1 :
  forall (X : list xr) (k K : nat) (xs ys : nat -> R)
    (f : list xr -> list xr -> nat -> res (list xr)) (Y : list xr) (x : xr) (d : nat),
    block X Y k K xs ys ->
    (outside k K xs x -> ppinterp_1 f x X Y d = Ok NaN)
    /\ forall r i c, x = Fin r -> in_piece k K xs r i -> f X Y i = Ok c ->
       ppinterp_1 f x X Y d = Ok (pval (Fin (r - xs i)) c d).
Proof. exact ppinterp_1_spec. Qed.
Print Assumptions C08_ppinterp_1.

Theorem C08_ppinterp_1_two :
  forall (X : list xr) (k K : nat) (xs ys : nat -> R)
    (f : list xr -> list xr -> nat -> res (list xr)) (Y Z : list xr) (x : xr) (d : nat),
    block X Y k K xs ys ->
    (outside k K xs x -> ppinterp_1_two f x X Y Z d = Ok (NaN, NaN))
    /\ forall r i c c', x = Fin r -> in_piece k K xs r i -> f X Y i = Ok c -> f X Z i = Ok c' ->
       ppinterp_1_two f x X Y Z d = Ok (pval (Fin (r - xs i)) c d, pval (Fin (r - xs i)) c' d).
Proof. exact ppinterp_1_two_spec. Qed.
Print Assumptions C08_ppinterp_1_two.

(** the two cases above are exhaustive ... *)
Theorem C08_cases :
  forall (X Y : list xr) (k K : nat) (xs ys : nat -> R) (x : xr),
    block X Y k K xs ys ->
    outside k K xs x \/ exists r i, x = Fin r /\ in_piece k K xs r i.
Proof. exact block_locate_total. Qed.
Print Assumptions C08_cases.

(** ... and without any valid data the result is NaN *)
Theorem C08_no_data :
  forall (X Y Z : list xr) (C D : list (list xr)) (x : xr) (d : nat)
    (f : list xr -> list xr -> nat -> res (list xr)),
    (no_data X Y -> ppinterp_1 f x X Y d = Ok NaN /\ ppinterp_1_two f x X Y Z d = Ok (NaN, NaN))
    /\ (knot_values C Y -> no_data X Y -> ppval_1 x X C d = Ok NaN /\ ppval_1_two x X C D d = Ok (NaN, NaN)).
Proof. exact no_data_all. Qed.
Print Assumptions C08_no_data.

(** variants for data without NaN *)
Theorem C08_nonan :
  forall (X : list xr) (C D : list (list xr)) (Y : list xr) (xs ys : nat -> R) (x : xr) (d : nat),
    knot_values C Y -> block X Y 0 (length X) xs ys -> (1 < length X)%nat ->
    ppval_1_nonan x X C d = ppval_1 x X C d
    /\ ppval_1_nonan_two x X C D d = ppval_1_two x X C D d.
Proof. exact nonan_same. Qed.
Print Assumptions C08_nonan.

Example C08_ex : in_piece 1 4 exxs 2 2 /\ outside 1 4 exxs (Fin 7) /\ block exX exY 1 4 exxs exys.
Proof.
  split; [|split; [|exact ex_block]].
  - unfold in_piece. simpl. repeat split; try lia; try lra.
  - unfold outside. do 4 right. exists 7. split; [reflexivity|]. right. simpl. lra.
Qed.

(** ** C09  Linear interpolation *)
Theorem C09_linear_interp :
  forall (X Y : list xr) (k K : nat) (xs ys : nat -> R),
    block X Y k K xs ys -> (k + 1 < K)%nat ->
    exists g : R -> R,
      (forall x, xs k <= x <= xs (K - 1)%nat -> linear_interp_1 (Fin x) X Y 0 = Ok (Fin (g x)))
      /\ (forall j, (k <= j < K)%nat -> g (xs j) = ys j)
      /\ (forall x, continuity_pt g x)
      /\ (forall x i, in_piece k K xs x i ->
            g x = ys i + (x - xs i) * ((ys (S i) - ys i) / (xs (S i) - xs i))
            /\ Rmin (ys i) (ys (S i)) <= g x <= Rmax (ys i) (ys (S i))
            /\ linear_interp_1 (Fin x) X Y 1 = Ok (Fin ((ys (S i) - ys i) / (xs (S i) - xs i)))
            /\ forall d, linear_interp_1 (Fin x) X Y (S (S d)) = Ok (Fin 0)).
Proof. exact linear_final. Qed.
Print Assumptions C09_linear_interp.

Example C09_ex : block exX exY 1 4 exxs exys /\ (1 + 1 < 4)%nat.
Proof. split; [exact ex_block|lia]. Qed.

(** ** C10  PCHIP: interpolating, continuously differentiable with the
    textbook slopes at the data sites, monotone on each interval. *)
Theorem C10_pchip_c1 :
  forall (X Y : list xr) (k K : nat) (xs ys : nat -> R),
    block X Y k K xs ys -> (k + 1 < K)%nat ->
    exists g g' : R -> R,
      (forall x, xs k <= x <= xs (K - 1)%nat ->
         pchip_interp_1 (Fin x) X Y 0 = Ok (Fin (g x))
         /\ pchip_interp_1 (Fin x) X Y 1 = Ok (Fin (g' x)))
      /\ (forall x, derivable_pt_lim g x (g' x))
      /\ (forall x, continuity_pt g' x)
      /\ (forall j, (k <= j < K)%nat -> g (xs j) = ys j)
      /\ (forall j, (k <= j < K)%nat -> g' (xs j) = pchip_slope k K xs ys j)
      /\ (forall i x x', (k <= i)%nat -> (S i < K)%nat -> xs i <= x -> x <= x' -> x' <= xs (S i) ->
            Rmin (ys i) (ys (S i)) <= g x <= Rmax (ys i) (ys (S i))
            /\ 0 <= (ys (S i) - ys i) * (g x' - g x)).
Proof. exact pchip_final. Qed.
Print Assumptions C10_pchip_c1.

Example C10_ex : block exX exY 1 4 exxs exys /\ (1 + 1 < 4)%nat.
Proof. split; [exact ex_block|lia]. Qed.

(** ** C11  PCHIP is shape preserving on every interval *)
Theorem C11_pchip_shape :
  forall (X Y : list xr) (k K : nat) (xs ys : nat -> R),
    block X Y k K xs ys -> (k + 1 < K)%nat ->
    forall i x x', (k <= i)%nat -> (S i < K)%nat -> xs i <= x -> x <= x' -> x' <= xs (S i) ->
    exists v v', pchip_interp_1 (Fin x) X Y 0 = Ok (Fin v) /\ pchip_interp_1 (Fin x') X Y 0 = Ok (Fin v')
      /\ Rmin (ys i) (ys (S i)) <= v <= Rmax (ys i) (ys (S i))
      /\ (ys i <= ys (S i) -> v <= v') /\ (ys (S i) <= ys i -> v' <= v).
Proof. exact pchip_shape. Qed.
Print Assumptions C11_pchip_shape.

Example C11_ex : block exX exY 1 4 exxs exys /\ exxs 2 <= 2 /\ 2 <= exxs 3.
Proof. split; [exact ex_block|simpl; lra]. Qed.

(** ** C12  PCHIP never divides by zero (nor fails otherwise) *)
Theorem C12_pchip_total :
  forall (X Y : list xr) (k K : nat) (xs ys : nat -> R),
    block X Y k K xs ys ->
    (forall junk, exists C, pchip_coeffs_1 junk X Y = Ok C)
    /\ (forall x d, exists y, pchip_interp_1 x X Y d = Ok y)
    /\ (forall x d, exists y, linear_interp_1 x X Y d = Ok y).
Proof.
  exact (fun X Y k K xs ys HB =>
    conj (pchip_coeffs_1_ok X Y k K xs ys HB)
      (conj (pchip_interp_1_ok X Y k K xs ys HB) (linear_interp_1_ok X Y k K xs ys HB))).
Qed.
Print Assumptions C12_pchip_total.

Theorem C12_pchip_no_data :
  forall (X Y : list xr) junk, no_data X Y -> X <> [] ->
    exists C, pchip_coeffs_1 junk X Y = Ok C /\ length C = length X.
Proof. exact no_data_pchip_coeffs. Qed.
Print Assumptions C12_pchip_no_data.

Example C12_ex : block exX exY 1 4 exxs exys.
Proof. exact ex_block. Qed.

(** ** C13  Coefficients computed on the fly or in advance: same results, in
    any arithmetic with commutative addition; in particular in binary64 and [xr]. *)
Theorem C13_linear_same :
  forall (F : Type) (N : Num F) (junk : F) (X Y : list F) (x : F) (d : nat),
    X <> [] -> length X = length Y ->
    (forall k K i, valid_range_1_two X Y = Ok (k, K) -> (k <= i)%nat -> (i + 1 < K)%nat ->
       eqb (sub (nth (i + 1) X nan) (nth i X nan)) zero = false) ->
    exists C, linear_coeffs_1 junk X Y = Ok C
      /\ linear_interp_1 x X Y d = ppval_1 x X C d.
Proof. exact @linear_same. Qed.
Print Assumptions C13_linear_same.

Theorem C13_pchip_same_f64 :
  forall (junk : f64) (X Y : list f64) (C : list (list f64)) (x : f64) (d : nat),
    length X = length Y -> regular X -> regular Y ->
    pchip_coeffs_1 junk X Y = Ok C ->
    pchip_interp_1 x X Y d = ppval_1 x X C d.
Proof. exact pchip_same. Qed.
Print Assumptions C13_pchip_same_f64.

Theorem C13_pchip_same_xr :
  forall (junk : xr) (X Y : list xr) (C : list (list xr)) (x : xr) (d : nat),
    length X = length Y -> regular X -> regular Y ->
    pchip_coeffs_1 junk X Y = Ok C ->
    pchip_interp_1 x X Y d = ppval_1 x X C d.
Proof. exact pchip_same. Qed.
Print Assumptions C13_pchip_same_xr.

(** With infinite values just outside the valid range the two disagree. *)
Theorem C13_pchip_same_inf_refuted :
  exists (X Y : list f64) (x : f64) C a b,
    length X = length Y /\ pchip_coeffs_1 nan X Y = Ok C
    /\ pchip_interp_1 x X Y 0 = Ok a /\ ppval_1 x X C 0 = Ok b
    /\ eqb a b = false.
Proof. exact pchip_same_inf. Qed.
Print Assumptions C13_pchip_same_inf_refuted.

Example C13_ex : regular exX /\ regular exY /\ exists C, pchip_coeffs_1 NaN exX exY = Ok C.
Proof.
  split; [|split].
  - intros i Hi. do 5 (destruct i as [|i]; [reflexivity|]). simpl in Hi. lia.
  - intros i Hi. do 5 (destruct i as [|i]; [reflexivity|]). simpl in Hi. lia.
  - exact (pchip_coeffs_1_ok _ _ _ _ _ _ ex_block NaN).
Qed.

(** ** C14  Two dependent variables at once *)
Theorem C14_ppinterp_1_two :
  forall (F : Type) (N : Num F) (f : list F -> list F -> nat -> res (list F))
    (x : F) (X Y Z : list F) (d : nat) (a b : F),
    length X = length Y -> same_nans Y Z ->
    (ppinterp_1_two f x X Y Z d = Ok (a, b)
     <-> ppinterp_1 f x X Y d = Ok a /\ ppinterp_1 f x X Z d = Ok b).
Proof. exact @ppinterp_1_two_pair. Qed.
Print Assumptions C14_ppinterp_1_two.

Theorem C14_ppval_1_two :
  forall (F : Type) (N : Num F) (x : F) (X : list F) (C D : list (list F)) (Y Z : list F) (d : nat) (a b : F),
    length X = length C -> knot_values C Y -> knot_values D Z -> same_nans Y Z ->
    (ppval_1_two x X C D d = Ok (a, b)
     <-> ppval_1 x X C d = Ok a /\ ppval_1 x X D d = Ok b).
Proof. exact @ppval_two_pair. Qed.
Print Assumptions C14_ppval_1_two.

Example C14_ex : same_nans exY [NaN; Fin 1; Fin 2; Fin 3; Fin 4].
Proof. split; [reflexivity|]. intros i Hi. do 5 (destruct i as [|i]; [split; reflexivity|]). simpl in Hi. lia. Qed.

(** ** C15  make_pp: either a documented combination, resolved to the
    documented and existing function, or ValueError *)
Theorem C15_make_pp :
  forall (interpolant kind out : string) (nans : bool) (n : Z),
  (exists f, In (interpolant, kind, out, nans, n, f) pp_table /\ make_pp interpolant kind out nans n = Ok f)
  \/ ((forall f, ~ In (interpolant, kind, out, nans, n, f) pp_table)
      /\ make_pp interpolant kind out nans n = Err ValueError).
Proof. exact make_pp_table. Qed.
Print Assumptions C15_make_pp.

Example C15_ex : make_pp "pchip" "1" "interp" true 2 = Ok "pchip_interp_1_two"%string.
Proof. reflexivity. Qed.

(** ** C16  diff_1d_samesize does not depend on the element read past the end *)
Theorem C16_diff :
  forall (F : Type) (N : Num F) (junk : F) (x : list F), x <> [] ->
    exists d, diff_1d_samesize junk x = Ok d
      /\ length d = length x
      /\ forall i, (i < length x)%nat ->
          nth_error d i = Some (if Nat.eqb (S i) (length x) then nan
                                else sub (nth (S i) x nan) (nth i x nan)).
Proof. exact @diff_1d_samesize_spec. Qed.
Print Assumptions C16_diff.

Theorem C16_diff_empty_refuted :
  forall (F : Type) (N : Num F) (junk : F), diff_1d_samesize junk [] = Err OutOfBounds.
Proof. exact @diff_1d_samesize_empty. Qed.
Print Assumptions C16_diff_empty_refuted.

Example C16_ex : [lit 1 0; lit 3 0] <> @nil f64.
Proof. discriminate. Qed.
