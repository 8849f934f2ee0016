(** * Memoisation: what it should do *)
From Coq Require Import List.
Import ListNotations.

Section SPEC.
  Context {K : Type}.
  Variable K_dec : forall a b : K, {a = b} + {a <> b}.

  (** distinct keys in order of last use, given the keys used, latest first *)
  Fixpoint recent (used : list K) : list K :=
    match used with
    | [] => []
    | k :: older => k :: remove K_dec k (recent older)
    end.
End SPEC.
