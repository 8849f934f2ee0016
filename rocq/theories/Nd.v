(** * N-dimensional arrays

    An array is its shape and its elements in row-major (C) order, which is
    what numpy's reshape preserves whatever the memory layout. *)
From Coq Require Import List ZArith Bool Lia.
From Verif Require Import Res Arr.
Import ListNotations.

Record nd (A : Type) : Type := mk_nd { shape : list nat; elems : list A }.
Arguments mk_nd {A} shape elems.
Arguments shape {A} n.
Arguments elems {A} n.

Fixpoint prod (sh : list nat) : nat := match sh with [] => 1 | n :: r => n * prod r end.

Definition ndim {A} (a : nd A) : nat := length (shape a).

(** position of a multi-index in row-major order *)
Fixpoint ravel (sh ix : list nat) : nat :=
  match sh, ix with
  | _ :: r, i :: q => i * prod r + ravel r q
  | _, _ => 0
  end.

Definition valid (sh ix : list nat) : Prop := Forall2 (fun n i => i < n) sh ix.

(** a[ix] *)
Definition at_ {A} (a : nd A) (ix : list nat) : option A := nth_error (elems a) (ravel (shape a) ix).

Definition wf {A} (a : nd A) : Prop := length (elems a) = prod (shape a).

(** all multi-indices in row-major order *)
Fixpoint all_idx (sh : list nat) : list (list nat) :=
  match sh with
  | [] => [[]]
  | n :: r => flat_map (fun i => map (cons i) (all_idx r)) (seq 0 n)
  end.

(** the array with the given shape and element function *)
Definition build {A} (sh : list nat) (f : list nat -> A) : nd A := mk_nd sh (map f (all_idx sh)).
Definition buildM {A} (sh : list nat) (f : list nat -> res A) : res (nd A) :=
  let! e := mapM f (all_idx sh) in Ok (mk_nd sh e).

(** element access, with a value for invalid positions *)
Definition getd {A} (a : nd A) (d : A) (ix : list nat) : A := nth (ravel (shape a) ix) (elems a) d.
