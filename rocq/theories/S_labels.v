(** * Specification vocabulary for integer labels of nodes *)
From Coq Require Import ZArith.

(** the label i stands for node n of N: a negative label counts from the end *)
Definition label_of (N : nat) (i : Z) (n : nat) : Prop := (n < N)%nat /\ (i = Z.of_nat n \/ i = Z.of_nat n - Z.of_nat N)%Z.
