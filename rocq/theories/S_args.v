(** * Specification vocabulary for arguments *)
From Coq Require Import Ascii String ZArith List.
From Verif Require Import Res M_vertsolve S_graph.
Import ListNotations.
Local Open Scope nat_scope.

(** m is the largest label of a node *)
Definition largest_node (edges : list (nat * nat)) (m : nat) : Prop :=
  in_range edges (S m) /\ exists a b, In (a, b) edges /\ (a = m \/ b = m).
(** N is the number of nodes given, or one more than the largest label *)
Definition node_count (edges : list (nat * nat)) (given : option nat) (N : nat) : Prop :=
  match given with Some n => N = n | None => exists m, largest_node edges m /\ N = S m end.

(** i is an index of an axis of length n, in the manner of Python *)
Definition axis_index (n : nat) (i : Z) : Prop := (- Z.of_nat n <= i < Z.of_nat n)%Z.
(** an array of the shape sh may be indexed: a tuple has an index for each of the first axes, a list indexes the first axis *)
Definition may_index (sh : list nat) (c : pincast) : Prop :=
  match c with
  | CNone => True
  | CTuple t => length t <= length sh /\ forall k i n, nth_error t k = Some i -> nth_error sh k = Some n -> axis_index n i
  | CList l => exists n r, sh = n :: r /\ forall i, In i l -> axis_index n i
  end.

(** the word for a side, of which only the first letter matters: left (false) or right *)
Definition word_for (right : bool) (w : string) : Prop := exists r, w = String (if right then "r"%char else "l"%char) r.

(** Y are the constant coefficients, the last of each row of C *)
Definition knot_values {F} (C : list (list F)) (Y : list F) : Prop := Forall2 (fun row y => exists r, row = r ++ [y]) C Y.
