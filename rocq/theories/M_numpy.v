(** * Functions of numpy used in several places *)
From Coq Require Import List Arith.
From Verif Require Import Num.
Import ListNotations.

Section Numpy.
  Context {F : Type} {N : Num F}.

  (** np.searchsorted(a, x), side = "left", as numpy and numba compute it: a binary search,
      whether or not a is sorted.  (It is never called with x = NaN, which they treat apart.) *)
  Fixpoint bsearch (fuel : nat) (a : list F) (x : F) (lo hi : nat) : nat :=
    match fuel with
    | O => lo
    | S f =>
        if Nat.ltb lo hi then
          let mid := lo + (hi - lo) / 2 in
          if ltb (nth mid a nan) x then bsearch f a x (mid + 1) hi else bsearch f a x lo mid
        else lo
    end.
  Definition searchsorted (a : list F) (x : F) : nat := bsearch (length a) a x 0 (length a).
End Numpy.
