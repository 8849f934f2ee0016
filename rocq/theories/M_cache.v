(** * functools.lru_cache(maxsize=10)

    Used by eos/tools.py:11 (_make_eos), eos/tools.py:127 (make_bsq), eos/tools.py:182
    (vectorize_eos), ppinterp/tools.py:5 (make_pp) and surface/_vertsolve.py:11
    (_make_vertsolve).  The library's algorithm: entries in order of last use; a hit moves the
    entry to the front; a miss calls the function, and a new entry displaces the one used
    longest ago when the cache is full; an exception is not stored.  A key is the tuple of
    arguments, compared by ==; unhashable arguments, threads and calls that reenter the same
    function are left out. *)
From Coq Require Import List Bool.
From Verif Require Import Res.
Import ListNotations.

Section LRU.
  Context {K V : Type}.
  Variable keq : K -> K -> bool.
  Variable raw : K -> res V.
  Variable maxsize : nat.

  Definition cache : Type := list (K * V).

  (** the entry with an equal key, and the other entries *)
  Fixpoint take_entry (k : K) (c : cache) : option ((K * V) * cache) :=
    match c with
    | [] => None
    | e :: r =>
        if keq (fst e) k then Some (e, r)
        else match take_entry k r with
             | Some (e', r') => Some (e', e :: r')
             | None => None
             end
    end.

  (** one call: the result, whether the function was called, the cache afterwards *)
  Definition call (k : K) (c : cache) : res V * bool * cache :=
    match take_entry k c with
    | Some (e, r) => (Ok (snd e), false, e :: r)
    | None =>
        match raw k with
        | Ok v => (Ok v, true, firstn maxsize ((k, v) :: c))
        | Err x => (Err x, true, c)
        end
    end.

  (** a history of calls *)
  Fixpoint calls (l : list K) (c : cache) : list (res V * bool) * cache :=
    match l with
    | [] => ([], c)
    | k :: r =>
        let '(v, called, c') := call k c in
        let '(vs, c'') := calls r c' in ((v, called) :: vs, c'')
    end.
End LRU.
