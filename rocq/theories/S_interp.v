(** * Specification vocabulary for casts and interpolation *)
From Coq Require Import Reals List Lia.
From Verif Require Import XR.
Import ListNotations.
Local Open Scope R_scope.

(** The pair of arrays (X, Y) has its first contiguous block of valid data at
    indices k..K-1, where it holds the real numbers xs i, ys i, with xs strictly
    increasing.  Before the block at least one of X, Y is NaN; the block ends at
    the end of the arrays or at a NaN in X or Y. *)
Record block (X Y : list xr) (k K : nat) (xs ys : nat -> R) : Prop := mkblock {
  blk_len : length X = length Y;
  blk_kK : (k < K)%nat;
  blk_K : (K <= length X)%nat;
  blk_X : forall i, (k <= i < K)%nat -> nth_error X i = Some (Fin (xs i));
  blk_Y : forall i, (k <= i < K)%nat -> nth_error Y i = Some (Fin (ys i));
  blk_inc : forall i, (k <= i)%nat -> (S i < K)%nat -> xs i < xs (S i);
  blk_pre : forall i, (i < k)%nat -> nth_error X i = Some NaN \/ nth_error Y i = Some NaN;
  blk_post : (K < length X)%nat -> nth_error X K = Some NaN \/ nth_error Y K = Some NaN
}.

(** no valid data at all *)
Definition no_data (X Y : list xr) : Prop :=
  length X = length Y /\
  forall i, (i < length X)%nat -> nth_error X i = Some NaN \/ nth_error Y i = Some NaN.

(** x lies in piece i: in [xs i, xs (i+1)], the left end only for the first piece *)
Definition in_piece (k K : nat) (xs : nat -> R) (x : R) (i : nat) : Prop :=
  (k <= i)%nat /\ (S i < K)%nat /\ xs i <= x <= xs (S i) /\ (i = k \/ xs i < x).

(** ** Textbook slopes of the PCHIP interpolant (Fritsch & Butland; Moler,
    Numerical Computing with MATLAB, sec. 3.6) *)
Definition width (xs : nat -> R) (i : nat) : R := xs (S i) - xs i.
Definition secant (xs ys : nat -> R) (i : nat) : R := (ys (S i) - ys i) / (xs (S i) - xs i).

(** interior data site: weighted harmonic mean of the secants, 0 at extrema *)
Definition slope_mid (h0 h1 δ0 δ1 : R) : R :=
  if Rlt_dec 0 (δ0 * δ1)
  then 3 * (h0 + h1) / ((h0 + 2 * h1) / δ0 + (2 * h0 + h1) / δ1)
  else 0.

(** end site: one-sided three-point formula, limited.  h1, δ1 belong to the end
    interval, h2, δ2 to the one next to it *)
Definition slope_end (h1 h2 δ1 δ2 : R) : R :=
  let q := ((2 * h1 + h2) * δ1 - h1 * δ2) / (h1 + h2) in
  if Rle_dec (q * δ1) 0 then 0
  else if Rle_dec (δ1 * δ2) 0
       then if Rlt_dec (3 * Rabs δ1) (Rabs q) then 3 * δ1 else q
       else q.

(** slope at data site j of a block k..K-1 with at least two sites *)
Definition pchip_slope (k K : nat) (xs ys : nat -> R) (j : nat) : R :=
  let h := width xs in
  let δ := secant xs ys in
  if Nat.eqb (K - k) 2 then δ k
  else if Nat.eqb j k then slope_end (h k) (h (k + 1)%nat) (δ k) (δ (k + 1)%nat)
  else if Nat.eqb j (K - 1) then slope_end (h (K - 2)%nat) (h (K - 3)%nat) (δ (K - 2)%nat) (δ (K - 3)%nat)
  else slope_mid (h (j - 1)%nat) (h j) (δ (j - 1)%nat) (δ j).
