(** * One-dimensional arrays as lists *)
From Coq Require Import List ZArith Bool Lia.
From Verif Require Import Res.
Import ListNotations.

(** a[i] in compiled code: no bounds check, so out of range is [OutOfBounds] *)
Definition get {A} (a : list A) (i : nat) : res A :=
  match nth_error a i with Some x => Ok x | None => Err OutOfBounds end.

(** list update; out of range leaves the list unchanged *)
Fixpoint upd {A} (a : list A) (i : nat) (x : A) : list A :=
  match a, i with
  | [], _ => []
  | _ :: r, O => x :: r
  | y :: r, S j => y :: upd r j x
  end.

(** a[i] = x in compiled code *)
Definition set {A} (a : list A) (i : nat) (x : A) : res (list A) :=
  if Nat.ltb i (length a) then Ok (upd a i x) else Err OutOfBounds.

(** a[k:K] for k <= K <= len(a) (numpy clips) *)
Definition slice {A} (a : list A) (k K : nat) : list A := firstn (K - k) (skipn k a).
