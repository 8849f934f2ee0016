(** * Results with exceptions, and loops *)
From Coq Require Import List ZArith Bool.
From Verif Require Import Num.
Import ListNotations.

Inductive exn : Type :=
| ZeroDivisionError | IndexError | ValueError | TypeError | KeyError
| NameError            (* read of an unassigned local variable *)
| AttributeError | RuntimeError | AssertionError
| OutOfBounds          (* out-of-range array access in compiled code (undefined behaviour) *)
| OutOfFuel.           (* the loop did not finish within the given fuel *)

Inductive res (A : Type) : Type :=
| Ok (a : A)
| Err (e : exn).
Arguments Ok {A} a.
Arguments Err {A} e.

Definition bind {A B} (x : res A) (f : A -> res B) : res B :=
  match x with Ok a => f a | Err e => Err e end.

Notation "'let!' x := e1 'in' e2" := (bind e1 (fun x => e2))
  (at level 200, x pattern, e1 at level 100, e2 at level 200, right associativity).

Definition is_ok {A} (x : res A) : bool := match x with Ok _ => true | Err _ => false end.

(** [while True: body], where body either continues with a new state or
    leaves the loop with a value. *)
Fixpoint loop {S A} (fuel : nat) (body : S -> res (S + A)) (s : S) : res A :=
  match fuel with
  | O => Err OutOfFuel
  | Datatypes.S n =>
      let! r := body s in
      match r with
      | inl s' => loop n body s'
      | inr a => Ok a
      end
  end.

(** [for x in l: body] with state threading *)
Fixpoint for_each {X S} (l : list X) (body : X -> S -> res S) (s : S) : res S :=
  match l with
  | [] => Ok s
  | x :: r => let! s' := body x s in for_each r body s'
  end.

(** [for i in range(a, b): body] *)
Definition for_range {S} (a b : nat) (body : nat -> S -> res S) (s : S) : res S :=
  for_each (seq a (b - a)) body s.

(** Scalar division in numba compiled code (error_model="python"):
    raises ZeroDivisionError when the divisor is zero. *)
Definition sdiv {F} {N : Num F} (x y : F) : res F :=
  if eqb y zero then Err ZeroDivisionError else Ok (div x y).

(** [mapM] *)
Fixpoint mapM {A B} (f : A -> res B) (l : list A) : res (list B) :=
  match l with
  | [] => Ok []
  | x :: r => let! y := f x in let! ys := mapM f r in Ok (y :: ys)
  end.
