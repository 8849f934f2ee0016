(** * Specifications for lib.py and grid/tools.py *)
From Coq Require Import String ZArith Bool List Reals.
From Verif Require Import Num Nd.
Import ListNotations.
Local Open Scope nat_scope.

Section Spec.
  Context {F : Type} {Nm : Num F}.

  (** k is the position of the first NaN of x(0), ..., x(n-1), or n *)
  Definition first_nan (x : nat -> option F) (n k : nat) : Prop :=
    k <= n
    /\ (forall j, j < k -> exists v, x j = Some v /\ isnan v = false)
    /\ (k < n -> exists v, x k = Some v /\ isnan v = true).

  (** the elements labelled j, in order *)
  Definition group (idx : list Z) (a : list F) (j : nat) : list F :=
    map snd (filter (fun p => Z.eqb (fst p) (Z.of_nat j)) (combine idx a)).
End Spec.

(** real sums *)
Definition Rsum (l : list R) : R := fold_right Rplus 0%R l.
(** g(0) + ... + g(n-1) *)
Fixpoint nsum (g : nat -> R) (n : nat) : R := match n with O => 0%R | S k => (nsum g k + g k)%R end.

(** net outflow of node j through edges with the given flux *)
Fixpoint outflow (edges : list (nat * nat)) (flux : list R) (j : nat) : R :=
  match edges, flux with
  | (a, b) :: r, f :: q =>
      ((if Nat.eqb a j then f else 0) - (if Nat.eqb b j then f else 0) + outflow r q j)%R
  | _, _ => 0%R
  end.

Section Pin.
  Context {F : Type} {Nm : Num F}.

  (** the labels d select the cast idx: for the k-th dimension, d holds the
      label found at position idx[k] of that dimension's index *)
  Definition selects (dims : list string) (index : string -> option (list F)) (d : list (string * F)) (idx : list nat) : Prop :=
    length idx = length dims
    /\ length d = length dims
    /\ forall k nm i, nth_error dims k = Some nm -> nth_error idx k = Some i ->
         exists ls v, In (nm, v) d /\ index nm = Some ls /\ nth_error ls i = Some v.

  (** strictly increasing labels *)
  Definition increasing (ls : list F) : Prop :=
    forall i j u v, i <= j -> nth_error ls i = Some u -> nth_error ls j = Some v ->
      ltb v u = false /\ (i < j -> ltb u v = true).
End Pin.

(** total weight of the edges listed as (m, n) plus those listed as (n, m) *)
Fixpoint weight_between (edges : list (nat * nat)) (w : list R) (m n : nat) : R :=
  match edges, w with
  | (a, b) :: r, x :: q =>
      ((if Nat.eqb a m && Nat.eqb b n then x else 0)
       + (if Nat.eqb a n && Nat.eqb b m then x else 0) + weight_between r q m n)%R
  | _, _ => 0%R
  end.

Section Matrices.
  Context {F : Type} {Nm : Num F}.
  Notation matrix := (nat -> nat -> F).

  Definition nonzero (A : matrix) i j : Prop := eqb (A i j) zero = false.
  (** adjacency as described for build_grid *)
  Definition adjacent (A : matrix) i j : Prop := nonzero A i j \/ nonzero A j i.
  (** symmetric structure; each pair stored in one direction only; symmetric values, none NaN *)
  Definition sym_str (n : nat) (A : matrix) := forall i j, i < n -> j < n -> nonzero A i j -> nonzero A j i.
  Definition one_sided (n : nat) (A : matrix) := forall i j, i < n -> j < n -> i <> j -> nonzero A i j -> ~ nonzero A j i.
  Definition symmetric (n : nat) (A : matrix) := forall i j, i < n -> j < n -> A i j = A j i /\ eqb (A i j) (A i j) = true.

  (** elementwise product *)
  Definition flux (v d : list F) : list F := map (fun p => mul (fst p) (snd p)) (combine v d).
End Matrices.

Section Index.
  Context {F : Type} {Nm : Num F}.

  (** k is a (possibly negative) index into an axis of length n *)
  Definition in_axis (n : nat) (k : Z) : Prop := (- Z.of_nat n <= k < Z.of_nat n)%Z.

  (** x is the k-th value of the cast T, or NaN for negative k *)
  Definition value_at (x : option F) (T : nat -> option F) (k : Z) : Prop :=
    if (k <? 0)%Z then x = Some nan else x = T (Z.to_nat k).

  Definition minus1 (k : nd nat) : nd Z := mk_nd (shape k) (map (fun z => (Z.of_nat z - 1)%Z) (elems k)).

  (** out has the vertical axis last: out[h1, h2, k] = x[h1, k, h2] *)
  Definition laid_out (x : list nat -> option F) (s1 s2 : list nat) (n : nat) (out : nd F) : Prop :=
    shape out = s1 ++ s2 ++ [n] /\ wf out
    /\ forall h1 h2 k, valid s1 h1 -> valid s2 h2 -> k < n -> at_ out (h1 ++ h2 ++ [k]) = x (h1 ++ k :: h2).
End Index.

(** the value of a keyword argument that is given or left at its default *)
Definition keyword {A} (o : option A) (default x : A) : Prop := o = Some x \/ o = None /\ x = default.
