(** * Model of neutralocean/grid/rectilinear.py and neutralocean/grid/tripolar.py

    Two-dimensional arrays are lists of rows; reshape(-1) is concat.  Sizes
    are natural numbers; the differences computed from them are integers. *)
From Coq Require Import List ZArith Bool.
From Verif Require Import Num Res Arr Nd.
Import ListNotations.

(** v[:h] and v[h:]; a negative h counts from the end *)
Definition bound {A} (v : list A) (h : Z) : nat :=
  Z.to_nat (if (h <? 0)%Z then h + Z.of_nat (length v) else h).
Definition upto {A} (v : list A) (h : Z) : list A := firstn (bound v h) v.
Definition from {A} (v : list A) (h : Z) : list A := skipn (bound v h) v.

(** np.empty(E) with content taken from [junk] *)
Definition np_empty {A} (junk : list A) (E : Z) : res (list A) :=
  if (E <? 0)%Z then Err ValueError else Ok (firstn (Z.to_nat E) junk).

(** the value assigned to a slice of n elements; a single value is repeated *)
Definition fit {A} (n : nat) (v : list A) : res (list A) :=
  if Nat.eqb (length v) n then Ok v
  else match v with [x] => Ok (repeat x n) | _ => Err ValueError end.
(** a[:h] = v and a[h:] = v *)
Definition assign_upto {A} (a : list A) (h : Z) (v : list A) : res (list A) :=
  let! v := fit (length (upto a h)) v in Ok (v ++ skipn (length v) a).
Definition assign_from {A} (a : list A) (h : Z) (v : list A) : res (list A) :=
  let! v := fit (length (from a h)) v in Ok (upto a h ++ v).

(** np.arange(n * m).reshape((n, m)) *)
Definition arange2 (n m : nat) : list (list nat) := map (fun i => seq (i * m) m) (seq 0 n).

(** np.roll(l, s): the element at position i moves to (i + s) mod len(l) *)
Definition roll {A} (s : Z) (l : list A) : list A :=
  let k := length l - Z.to_nat (s mod Z.of_nat (length l)) in skipn k l ++ firstn k l.

(** np.broadcast_to(a, (n, m)) *)
Definition broadcast2 {A} (a : nd A) (n m : nat) : res (list (list A)) :=
  let fits d t := Nat.eqb d t || Nat.eqb d 1 in
  let pick d t := if Nat.eqb d 1 then 0 else t in
  let elem (k : nat) := match nth_error (elems a) k with Some x => Ok x | None => Err IndexError end in
  let table (f : nat -> nat -> nat) := mapM (fun i => mapM (fun j => elem (f i j)) (seq 0 m)) (seq 0 n) in
  match shape a with
  | [] => table (fun _ _ => 0)
  | [c] => if fits c m then table (fun _ j => pick c j) else Err ValueError
  | [r; c] => if fits r n && fits c m then table (fun i j => pick r i * c + pick c j) else Err ValueError
  | _ => Err ValueError
  end.

(** v.reshape((r, c)); -1 stands for the size that fits *)
Definition reshape2 {A} (v : list A) (r c : Z) : res (nd A) :=
  let L := Z.of_nat (length v) in
  let shaped r c := if (r * c =? L)%Z then Ok (mk_nd [Z.to_nat r; Z.to_nat c] v) else Err ValueError in
  if (r =? -1)%Z then if (c <=? 0)%Z then Err ValueError else shaped (L / c)%Z c
  else if (c =? -1)%Z then if (r <=? 0)%Z then Err ValueError else shaped r (L / r)%Z
  else if (r <? 0)%Z || (c <? 0)%Z then Err ValueError
  else shaped r c.

(** int(not periodic) *)
Definition wall (per : bool) : nat := if per then 0 else 1.

Section Rectilinear.
  (** rectilinear.py:94-139 for dims = (ni, nj), periodic = (p0, p1) *)
  Definition build_edges (junk_a junk_b : list nat) (ni nj : nat) (p0 p1 : bool) : res (list nat * list nat) :=
    let i1 := wall p0 in
    let j1 := wall p1 in
    let i2 := (Z.of_nat ni - Z.of_nat i1)%Z in
    let j2 := (Z.of_nat nj - Z.of_nat j1)%Z in
    let Ei := (i2 * Z.of_nat nj)%Z in
    let Ej := (Z.of_nat ni * j2)%Z in
    let E := (Ei + Ej)%Z in
    let! a := np_empty junk_a E in
    let! b := np_empty junk_b E in
    let idx := arange2 ni nj in
    let! ab :=
      if p0 then
        let! a := assign_upto a Ei (concat idx) in
        let! b := assign_upto b Ei (concat (roll 1 idx)) in
        Ok (a, b)
      else
        let! a := assign_upto a Ei (concat (skipn i1 idx)) in
        let! b := assign_upto b Ei (concat (upto idx i2)) in
        Ok (a, b) in
    let (a, b) := ab in
    if p1 then
      let! a := assign_from a Ei (concat idx) in
      let! b := assign_from b Ei (concat (map (roll 1) idx)) in
      Ok (a, b)
    else
      let! a := assign_from a Ei (concat (map (skipn j1) idx)) in
      let! b := assign_from b Ei (concat (map (fun r => upto r j2) idx)) in
      Ok (a, b).

  Context {A : Type}.

  (** rectilinear.py:142-185 *)
  Definition build_edgedata (ni nj : nat) (p0 p1 : bool) (data0 data1 : nd A) : res (list A) :=
    let i1 := wall p0 in
    let j1 := wall p1 in
    let! x := broadcast2 data0 ni nj in
    let! y := broadcast2 data1 ni nj in
    Ok (concat (skipn i1 x) ++ concat (map (skipn j1) y)).

  (** rectilinear.py:4-91 *)
  Definition build_grid (junk_a junk_b : list nat) (ni nj : nat) (p0 p1 : bool) (dxC dyC dyG dxG : nd A)
    : res ((list nat * list nat) * list A * list A) :=
    let! edges := build_edges junk_a junk_b ni nj p0 p1 in
    let! dist := build_edgedata ni nj p0 p1 dxC dyC in
    let! distperp := build_edgedata ni nj p0 p1 dyG dxG in
    Ok (edges, dist, distperp).

  (** rectilinear.py:188-226 *)
  Definition edgedata_to_maps (nan : A) (edgedata : list A) (ni nj : nat) (p0 p1 : bool)
    : res (list (list A) * list (list A)) :=
    let i1 := wall p0 in
    let j1 := wall p1 in
    let i2 := (Z.of_nat ni - Z.of_nat i1)%Z in
    let j2 := (Z.of_nat nj - Z.of_nat j1)%Z in
    let Ei := (i2 * Z.of_nat nj)%Z in
    let F := repeat (repeat nan nj) ni in
    let! x := reshape2 (upto edgedata Ei) i2 (Z.of_nat nj) in
    let! x := broadcast2 x (ni - i1) nj in
    let! y := reshape2 (from edgedata Ei) (Z.of_nat ni) j2 in
    let! y := broadcast2 y ni (nj - j1) in
    Ok (firstn i1 F ++ x, map (fun rv => firstn j1 (fst rv) ++ snd rv) (combine F y)).
End Rectilinear.

Section Tripolar.
  (** tripolar.py:69-108 for dims = (nj, ni) *)
  Definition tripolar_edges (junk_a junk_b : list nat) (nj ni : nat) : res (list nat * list nat) :=
    let Ei := Z.of_nat (ni * nj) in
    let Ej := Z.of_nat (ni * nj) in
    let E := (Ei + Ej)%Z in
    let! a := np_empty junk_a E in
    let! b := np_empty junk_b E in
    let idx := arange2 (nj + 1) ni in
    let! prev := match nj with
                 | O => Err IndexError
                 | S q => match nth_error idx q with Some r => Ok r | None => Err IndexError end
                 end in
    let idx := firstn nj idx ++ [rev prev] in
    let! a := assign_upto a Ej (concat (firstn nj idx)) in
    let! b := assign_upto b Ej (concat (skipn 1 idx)) in
    let! a := assign_from a Ej (concat (upto idx (-1))) in
    let! b := assign_from b Ej (concat (map (roll (-1)) (upto idx (-1)))) in
    Ok (a, b).

  Context {A : Type}.

  (** tripolar.py:111-155.  The arrays tested at lines 150 and 152 already have
      shape (nj, ni). *)
  Definition tripolar_edgedata (nj ni : nat) (v u : nd A) : res (list A) :=
    let trim (x : list (list A)) :=
      if Nat.eqb nj (nj + 1) && Nat.eqb ni (ni + 2) then map (fun r => upto (skipn 1 r) (-1)) (upto x (-1)) else x in
    let! v := broadcast2 v nj ni in
    let! u := broadcast2 u nj ni in
    Ok (concat (trim v) ++ concat (trim u)).

  (** tripolar.py:62-66 *)
  Definition tripolar_grid (junk_a junk_b : list nat) (nj ni : nat) (e1u e2v e2u e1v : nd A)
    : res ((list nat * list nat) * list A * list A) :=
    let! edges := tripolar_edges junk_a junk_b nj ni in
    let! dist := tripolar_edgedata nj ni e2v e1u in
    let! distperp := tripolar_edgedata nj ni e1v e2u in
    Ok (edges, dist, distperp).

  (** tripolar.py:158-188 *)
  Definition tripolar_maps (edgedata : list A) (nj ni : nat) : res (nd A * nd A) :=
    let Ej := Z.of_nat (ni * nj) in
    let! v := reshape2 (upto edgedata Ej) (Z.of_nat nj) (Z.of_nat ni) in
    let! u := reshape2 (from edgedata Ej) (Z.of_nat nj) (Z.of_nat ni) in
    Ok (v, u).
End Tripolar.
