(** * Specification vocabulary for the entry points of traj.py *)
From Coq Require Import Reals List.
From Verif Require Import Num XR Res S_interp S_fzero S_traj S_vertsolve S_vert64.
Import ListNotations.
Local Open Scope R_scope.

(** the columns of a sequence of nc casts, c giving the column at each position *)
Definition sequence {A} (nc : nat) (c : list nat -> A) : list A := map (fun i => c [i]) (seq 0 nc).

(** the bottle x on the column c is neutral with the bottle (sB, tB, pB): near x there is water of the column that has
    exactly the density of the bottle, both at the mean pressure of the two.  All NaN if there is too little data, or
    if the bottle is lighter, or denser, than the water of both ends of the column. *)
Definition neutral_bottle rel (rho : R -> R -> R -> R) (tol sB tB pB : R) (c : column) (x : bottle) : Prop :=
  (short_cast (fst (fst c)) (snd c) /\ x = (NaN, NaN, NaN))
  \/ exists gS gT lo hi, profile rel c gS gT lo hi /\
       let h p := neutral_of rho sB tB pB (gS p) (gT p) p in
       (x = (NaN, NaN, NaN) /\ 0 < h lo * h hi)
       \/ exists p q, x = (Fin (gS p), Fin (gT p), Fin p) /\ lo <= p <= hi /\ lo <= q <= hi /\ h q = 0 /\ Rabs (p - q) <= brent_tol p tol.

(** l continues the trajectory from the bottle x over the columns cs; once a bottle is NaN all others are *)
Inductive neutral_links rel (rho : R -> R -> R -> R) (tol : R) : bottle -> list column -> list bottle -> Prop :=
| ch_end x : neutral_links rel rho tol x [] []
| ch_lost cs : neutral_links rel rho tol (NaN, NaN, NaN) cs (repeat (NaN, NaN, NaN) (length cs))
| ch_link s t p c x cs l : neutral_bottle rel rho tol s t p c x -> neutral_links rel rho tol x cs l ->
    neutral_links rel rho tol (Fin s, Fin t, Fin p) (c :: cs) (x :: l).

(** pressure p is above, or below, the data of the column *)
Definition beyond (c : column) (p : R) : Prop :=
  exists k K ss ts ps, cast (fst (fst c)) (snd (fst c)) (snd c) k K ss ts ps /\ (k + 1 < K)%nat /\ (p < ps k \/ ps (K - 1)%nat < p).

(** the three arrays of a list of bottles *)
Definition arrays {F} (x : list (F * F * F)) : list F * list F * list F :=
  (map (fun b => fst (fst b)) x, map (fun b => snd (fst b)) x, map snd x).
