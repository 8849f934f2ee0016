(** * Specification vocabulary for xgcm grids *)
From Coq Require Import String List ZArith Bool Permutation.
From Verif Require Import Nd M_xgcm.
Import ListNotations.
Local Open Scope nat_scope.

(** a cell assigns a position to every dimension name *)
Notation cell := (string -> nat).

Section Spec.
  Variables (tile : string) (nf n : nat).

  Definition size (nm : string) : nat := if String.eqb nm tile then nf else n.
  Definition in_grid (dims : list string) (s : cell) : Prop := forall nm, In nm dims -> s nm < size nm.
  (** linear index of a cell in an array with the given dimensions *)
  Definition number (dims : list string) (s : cell) : nat := ravel (map size dims) (map s dims).
  (** a lists a value for every cell *)
  Definition labelled {A} (ds : list string) (a : nd A) : Prop := shape a = map size ds /\ wf a.

  (** the names documented for dims *)
  Definition good_dims (dims : list string) : Prop :=
    Permutation dims [tile; "i"%string; "j"%string] /\ NoDup dims.

  (** xgcm shifts the array by one along an axis: the result holds, for every
      cell, the value at its neighbour nb, or -1 when it has none.  The
      dimensions of the result may come in another order. *)
  Definition shifts (ufunc : axis -> bool -> larr Z -> larr Z) (nb : axis -> bool -> cell -> option cell) : Prop :=
    forall ax right ds a, good_dims ds -> labelled ds a ->
      exists ds' r, ufunc ax right (ds, a) = (ds', r) /\ Permutation ds ds' /\ labelled ds' r
        /\ forall s, in_grid ds s ->
             match nb ax right s with
             | Some s' => in_grid ds s' /\ at_ r (map s ds') = at_ a (map s' ds)
             | None => at_ r (map s ds') = Some (-1)%Z
             end.

  (** the order of the dimensions is kept *)
  Definition keeps_order (ufunc : axis -> bool -> larr Z -> larr Z) (ax : axis) (right : bool) : Prop :=
    forall ds a, fst (ufunc ax right (ds, a)) = ds.

  (** the check of the dimension names, when all metrics are DataArrays *)
  Definition names_match (d1 d2 d3 d4 : option (list string)) : Prop :=
    match d1, d2, d3, d4 with
    | Some e1, Some e2, Some e3, Some e4 => e1 = e3 /\ e2 = e4
    | _, _, _, _ => True
    end.
End Spec.
