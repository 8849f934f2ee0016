(** * Model of neutralocean/mixed_layer.py

    Arrays of one shape (numpy's broadcasting of S against T is not modelled); an eos that
    returns a pair cannot be vectorized by numba (TypeError). *)
From Coq Require Import String ZArith Bool List.
From Verif Require Import Num Res Arr Nd M_lib M_ppinterp M_make_pp M_eos_base M_eostools.
Import ListNotations.
Local Open Scope num_scope.

Section MixedLayer.
  Context {F : Type} {N : Num F}.

  (** Python's l[i:j] *)
  Definition py_bound (n : nat) (i : Z) : nat :=
    Z.to_nat (Z.min (Z.of_nat n) (Z.max 0 (if (i <? 0)%Z then i + Z.of_nat n else i))).
  Definition py_slice {A} (l : list A) (i j : Z) : list A :=
    slice l (py_bound (length l) i) (py_bound (length l) j).

  (** eos/tools.py:182-207 applied to a function returning a number *)
  Definition vectorized (f : fn) : F -> F -> F -> res F :=
    match f with F1 f => f | F2 _ => fun _ _ _ => Err TypeError end.

  (** ppinterp: the gufuncs linear_interp, pchip_interp on one column *)
  Definition interp_named (name : string) : F -> list F -> list F -> nat -> res F :=
    if (name =? "linear_interp")%string then linear_interp_1 else pchip_interp_1.

  (** eos(S, T, p) on one column *)
  Definition eos_column (eos : F -> F -> F -> res F) (S T : list F) (p : F) : res (list F) :=
    mapM (fun st => eos (fst st) (snd st) p) (combine S T).

  (** mixed_layer.py:123-141 on one column; core dimensions of a gufunc must agree *)
  Definition mixed_layer_1 (eos : F -> F -> F -> res F) (interp_fn : F -> list F -> list F -> nat -> res F)
      (pot_dens_diff ref_p : F) (bottle_index : Z) (S T P : list F) : res F :=
    let SB := py_slice S bottle_index (bottle_index + 1) in
    let TB := py_slice T bottle_index (bottle_index + 1) in
    let! e := eos (lit 345 (-1)) (lit 3 0) (lit 1000 0) in
    let! d := eos_column eos S T ref_p in
    let! dB := eos_column eos SB TB ref_p in
    let! DD := if e >? lit 1 0 then np_bin sub d dB
               else np_bin sub (map (div (lit 1 0)) d) (map (div (lit 1 0)) dB) in
    if Nat.eqb (length DD) (length P) then interp_fn pot_dens_diff DD P 0 else Err ValueError.

  (** a[h], the column of an array with the vertical dimension of length n last *)
  Definition column (a : nd F) (n : nat) (h : list nat) : list F := map (fun k => getd a nan (h ++ [k])) (seq 0 n).

  (** mixed_layer.py:8-141 *)
  Definition mixed_layer (S T P : data) (eos : arg) (grav rho_c : option F) (pot_dens_diff ref_p : F)
      (bottle_index : Z) (interp : string) (vert_dim : vdim) : res (nd F) :=
    let! f := make_eos sdiv eos grav rho_c in
    let! name := make_pp interp "u" "interp" true 1 in
    let! v := process_vert_dim vert_dim S in
    let! stp := process_casts S T P (VInt (Z.of_nat v)) in
    let '(s, t, p) := stp in
    if list_eq_dec Nat.eq_dec (shape s) (shape t) then
      if list_eq_dec Nat.eq_dec (shape s) (shape p) then
        match rev (shape s) with
        | [] => Err IndexError
        | n :: rh =>
            buildM (rev rh)
              (fun h => mixed_layer_1 (vectorized f) (interp_named name) pot_dens_diff ref_p bottle_index
                          (column s n h) (column t n h) (column p n h))
        end
      else Err ValueError
    else Err ValueError.
End MixedLayer.
