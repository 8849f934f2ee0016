(** * Model of neutralocean/grid/xgcm.py

    The library xgcm itself is not modelled: the result of
    Grid.apply_as_grid_ufunc is an argument.  Arrays with named dimensions
    (xarray.DataArray) are pairs of the names and the array. *)
From Coq Require Import Ascii String List ZArith Bool.
From Verif Require Import Num Res Arr Nd M_grid.
Import ListNotations.
Local Open Scope nat_scope.

Inductive axis : Type := AxX | AxY.
Definition larr (A : Type) : Type := (list string * nd A)%type.

(** position of a name, dims.index(name) *)
Fixpoint index_of (nm : string) (dims : list string) : option nat :=
  match dims with
  | [] => None
  | d :: r => if String.eqb d nm then Some 0 else option_map S (index_of nm r)
  end.

(** entry of ix for the dimension nm *)
Definition entry (dims : list string) (ix : list nat) (nm : string) : nat :=
  match index_of nm dims with Some k => nth k ix 0 | None => 0 end.

(** x.transpose( *to) *)
Definition transpose (to : list string) (x : larr Z) : larr Z :=
  let (ds, a) := x in
  (to, build (map (entry ds (shape a)) to) (fun ix => getd a 0%Z (map (entry to ix) ds))).

(** a metric: a float, or an array with its dimension names if it is a DataArray *)
Inductive metric (F : Type) : Type :=
| Scalar (x : F)
| Array (dims : option (list string)) (a : nd F).
Arguments Scalar {F} x.
Arguments Array {F} dims a.

(** x.reshape(-1); a float has no method reshape *)
Definition flat {F} (x : metric F) : res (list F) :=
  match x with Scalar _ => Err AttributeError | Array _ a => Ok (elems a) end.

(** xgcm.py:104-105: first letter is "r" *)
Definition side (sh : string) : res bool :=
  match sh with
  | EmptyString => Err IndexError
  | String c _ => if Ascii.eqb c "l"%char then Ok false else if Ascii.eqb c "r"%char then Ok true else Err AssertionError
  end.

Definition same_names (d d' : list string) : bool := if list_eq_dec string_dec d d' then true else false.

(** x[good] *)
Definition select {A} (good : list bool) (x : list A) : list A :=
  map snd (filter (fun p => fst p) (combine good x)).

(** x[pos] = v for distinct positions in range *)
Definition put {A} (x : list A) (pos : list nat) (v : list A) : res (list A) :=
  let! v := fit (length pos) v in
  for_each (combine pos v) (fun pv x => set x (fst pv) (snd pv)) x.

(** np.flatnonzero *)
Definition flatnonzero (good : list bool) : list nat := select good (seq 0 (length good)).

Section Xgcm.
  Context {F : Type} {Nm : Num F}.
  (** apply_as_grid_ufunc for the given axis, on the left (false) or right *)
  Variable ufunc : axis -> bool -> larr Z -> larr Z.
  (** the key of face_connections and the number of faces *)
  Variables (tile : string) (nf : nat).

  (** xgcm.py:197-312 *)
  Definition build_im1_jm1 (n : nat) (dims : list string) (xr yr : bool) : res (nd Z * nd Z) :=
    match index_of tile dims with
    | None => Err ValueError
    | Some t =>
      match index_of "i"%string dims, index_of "j"%string dims with
      | Some _, Some _ =>
        if negb (Nat.ltb t 3) then Err IndexError
        else if negb (Nat.eqb (length dims) 3) then Err ValueError
        else
          let idx := (dims, mk_nd (upd [n; n; n] t nf) (map Z.of_nat (seq 0 (nf * n * n)))) in
          let im1 := ufunc AxX xr idx in
          let jm1 := if yr then ufunc AxY true idx else transpose dims (ufunc AxY false idx) in
          Ok (snd im1, snd jm1)
      | _, _ => Err ValueError
      end
    end.

  (** xgcm.py:6-153; a[:N] = ... is into arrays of length 2N *)
  Definition xgcm_grid (junk : list Z) (junkd junkp : list F) (n : nat) (dims : list string) (xsh ysh : string)
      (dxC dyC dyG dxG : metric F) : res ((list nat * list Z) * list F * list F) :=
    let! xr := side xsh in
    let! yr := side ysh in
    let! _ := match dxC, dyC, dyG, dxG with
              | Array (Some d1) _, Array (Some d2) _, Array (Some d3) _, Array (Some d4) _ =>
                  if same_names d1 d3 then if same_names d2 d4 then Ok tt else Err AssertionError else Err AssertionError
              | _, _, _, _ => Ok tt
              end in
    let! im := build_im1_jm1 n dims xr yr in
    let (im1, jm1) := im in
    let N := length (elems im1) in
    let h := Z.of_nat N in
    let a := seq 0 N ++ seq 0 N in
    let! b := np_empty junk (h * 2) in
    let! b := assign_upto b h (elems im1) in
    let! b := assign_from b h (elems jm1) in
    let! dist := np_empty junkd (h * 2) in
    let! v := flat dyC in
    let! dist := assign_upto dist h v in
    let! v := flat dxC in
    let! dist := assign_from dist h v in
    let! distperp := np_empty junkp (h * 2) in
    let! v := flat dxG in
    let! distperp := assign_upto distperp h v in
    let! v := flat dyG in
    let! distperp := assign_from distperp h v in
    let good := map (fun x => (0 <=? x)%Z) b in
    Ok ((select good a, select good b), select good dist, select good distperp).

  (** xgcm.py:156-194; np.reshape(x, im1.shape) *)
  Definition xgcm_maps (edgedata : list F) (n : nat) (dims : list string) (xsh ysh : string) : res (nd F * nd F) :=
    let! im := match xsh, ysh with
               | EmptyString, _ | _, EmptyString => Err IndexError
               | String c _, String d _ => build_im1_jm1 n dims (negb (Ascii.eqb c "l"%char)) (negb (Ascii.eqb d "l"%char))
               end in
    let (im1, jm1) := im in
    let N := length (elems im1) in
    let pi := flatnonzero (map (fun x => (0 <=? x)%Z) (elems im1)) in
    let pj := flatnonzero (map (fun x => (0 <=? x)%Z) (elems jm1)) in
    let Ni := Z.of_nat (length pi) in
    let! Fi := put (repeat nan N) pi (upto edgedata Ni) in
    let! Fj := put (repeat nan N) pj (from edgedata Ni) in
    Ok (mk_nd (shape im1) Fi, mk_nd (shape im1) Fj).
End Xgcm.
