(** * Specification vocabulary for rectilinear and tripolar grids *)
From Coq Require Import List ZArith Bool.
From Verif Require Import Nd.
Import ListNotations.

(** the number of cell (i, j) when rows have m cells *)
Definition node (m i j : nat) : nat := i * m + j.

(** cell y comes just before cell x among n cells, cyclically if per *)
Definition precedes (n : nat) (per : bool) (y x : nat) : Prop :=
  x < n /\ y < n /\ (x = S y \/ (per = true /\ x = 0 /\ S y = n)).

(** x and y differ by one, modulo n if per *)
Definition by_one (n : nat) (per : bool) (x y : nat) : Prop :=
  x < n /\ y < n
  /\ (x = S y \/ y = S x
      \/ per = true /\ exists k, (Z.of_nat x - Z.of_nat y = 1 + k * Z.of_nat n)%Z
                              \/ (Z.of_nat x - Z.of_nat y = -1 + k * Z.of_nat n)%Z).

(** adjacent cells of an ni by nj grid, given by their numbers *)
Definition neighbours (ni nj : nat) (p0 p1 : bool) (c c' : nat) : Prop :=
  exists i j i' j', c = node nj i j /\ c' = node nj i' j' /\ j < nj /\ j' < nj /\ i < ni /\ i' < ni
    /\ ((j = j' /\ by_one ni p0 i i') \/ (i = i' /\ by_one nj p1 j j')).

(** number of cells in a direction that have a cell before them *)
Definition with_prev (n : nat) (per : bool) : nat := if per then n else n - 1.

(** no size for which the number of edges would be negative *)
Definition sizes_ok (ni nj : nat) (p0 p1 : bool) : Prop :=
  (p0 = true \/ 0 < ni \/ nj = 0) /\ (p1 = true \/ 0 < nj \/ ni = 0).

(** a two-dimensional array as a list of rows *)
Definition at2 {A} (l : list (list A)) (i j : nat) : option A :=
  match nth_error l i with Some r => nth_error r j | None => None end.
Definition has_shape {A} (l : list (list A)) (n m : nat) : Prop :=
  length l = n /\ forall r, In r l -> length r = m.

(** numpy broadcasting of an array to shape (n, m) *)
Definition last_of {A} (k : nat) (l : list A) : list A := skipn (length l - k) l.
Definition broadcastable {A} (a : nd A) (n m : nat) : Prop :=
  wf a /\ ndim a <= 2 /\ Forall2 (fun d t => d = t \/ d = 1) (shape a) (last_of (ndim a) [n; m]).
Definition bat {A} (a : nd A) (i j : nat) : option A :=
  at_ a (map (fun dt => if Nat.eqb (fst dt) 1 then 0 else snd dt) (combine (shape a) (last_of (ndim a) [i; j]))).

(** the tripolar grid of nj rows of ni cells: zonally periodic; a cell of the
    last row is joined across the fold with its mirror image in that row *)
Definition north (nj ni j i j' i' : nat) : Prop :=
  (j' = S j /\ i' = i) \/ (S j = nj /\ j' = j /\ i' + S i = ni).
Definition east (ni j i j' i' : nat) : Prop := j' = j /\ (i' = S i \/ (S i = ni /\ i' = 0)).

(** adjacent cells, given by their numbers *)
Definition tripolar_neighbours (nj ni : nat) (c c' : nat) : Prop :=
  exists j i j' i', c = node ni j i /\ c' = node ni j' i' /\ j < nj /\ j' < nj /\ i < ni /\ i' < ni
    /\ (north nj ni j i j' i' \/ north nj ni j' i' j i \/ east ni j i j' i' \/ east ni j' i' j i).
