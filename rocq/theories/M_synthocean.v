(** * Model of neutralocean/synthocean.py

    Lines 53-127 (the ocean) are modelled over any numbers, lines 129-162 (the dict g) also over
    any sine, cosine and pi.  np.linspace and broadcasting are numpy's.  x ** n for an integer n
    is repeated multiplication.  np.min and np.max give NaN when an element is NaN. *)
From Coq Require Import ZArith Bool List.
From Verif Require Import Num Res Arr Nd M_eos_base.
Import ListNotations.
Local Open Scope num_scope.

Section NUMPY.
  Context {F : Type} {N : Num F}.

  (** numpy.linspace(start, stop, num) *)
  Definition np_linspace (start stop : F) (num : Z) : res (list F) :=
    if (num <? 0)%Z then Err ValueError else
    let delta := stop - start in
    let n := Z.to_nat num in
    if (1 <? num)%Z then
      let d := of_Z (num - 1) in
      let step := delta / d in
      Ok (map (fun i => if Nat.eqb (S i) n then stop
                        else (if step =? zero then (of_nat i / d) * delta else of_nat i * step) + start) (seq 0 n))
    else Ok (map (fun i => of_nat i * delta + start) (seq 0 n)).

  (** .reshape((n, 1, 1)), .reshape((1, n, 1)), .reshape((1, 1, n)) of n numbers *)
  Definition along0 (l : list F) : nd F := mk_nd [length l; 1%nat; 1%nat] l.
  Definition along1 (l : list F) : nd F := mk_nd [1%nat; length l; 1%nat] l.
  Definition along2 (l : list F) : nd F := mk_nd [1%nat; 1%nat; length l] l.

  (** arithmetic on two arrays with the same number of dimensions *)
  Definition bc_dim (a b : nat) : res nat :=
    if Nat.eqb a b then Ok a else if Nat.eqb a 1 then Ok b else if Nat.eqb b 1 then Ok a else Err ValueError.
  Definition bc_idx (sh ix : list nat) : list nat :=
    map (fun p => if Nat.eqb (fst p) 1 then O else snd p) (combine sh ix).
  Definition np_zip (f : F -> F -> F) (x y : nd F) : res (nd F) :=
    let! sh := mapM (fun p => bc_dim (fst p) (snd p)) (combine (shape x) (shape y)) in
    Ok (build sh (fun ix => f (getd x nan (bc_idx (shape x) ix)) (getd y nan (bc_idx (shape y) ix)))).
  Definition np_map (f : F -> F) (x : nd F) : nd F := mk_nd (shape x) (map f (elems x)).

  (** np.min, np.max: ValueError if there are no elements *)
  Definition np_min (x : nd F) : res F :=
    match elems x with
    | [] => Err ValueError
    | a :: r => Ok (fold_left (fun m v => if isnan m then m else if isnan v then v else if v <? m then v else m) r a)
    end.
  Definition np_max (x : nd F) : res F :=
    match elems x with
    | [] => Err ValueError
    | a :: r => Ok (fold_left (fun m v => if isnan m then m else if isnan v then v else if m <? v then v else m) r a)
    end.

  (** np.tile(x, (n, 1, 1)) *)
  Definition np_tile (n : Z) (x : nd F) : nd F :=
    match shape x with
    | [a; b; c] => mk_nd [(Z.to_nat n * a)%nat; b; c] (concat (repeat (elems x) (Z.to_nat n)))
    | _ => x
    end.

  (** x[0, :, :] = nan and x[:, 0, :] = nan *)
  Definition wall0 (x : nd F) : res (nd F) :=
    match shape x with
    | [O; _; _] => Err IndexError
    | sh => Ok (build sh (fun ix => match ix with O :: _ => nan | _ => getd x nan ix end))
    end.
  Definition wall1 (x : nd F) : res (nd F) :=
    match shape x with
    | [_; O; _] => Err IndexError
    | sh => Ok (build sh (fun ix => match ix with _ :: O :: _ => nan | _ => getd x nan ix end))
    end.
End NUMPY.

Section SYNTHOCEAN.
  Context {F : Type} {N : Num F}.

  (** lines 56-57, 71, 93 *)
  Definition Ynorth : F := lit 60 0.
  Definition Ysouth : F := lit (-80) 0.
  Definition normed (y : F) : F := (y - lit (-7) 0) / lit 4114 (-2).

  (** lines 65-72 *)
  Definition poly_T (x : F) : F :=
    lit 6265 (-4) * fpow x 5 + lit 3269 (-3) * fpow x 4 + lit (-3602) (-3) * fpow x 3 + lit (-1893) (-2) * fpow x 2 + lit 5927 (-3) * x + lit 2741 (-2).

  (** lines 82-83 *)
  Definition Tmin : F := lit (-18) (-1).
  Definition Tmax : F := lit 300 (-1).

  (** lines 65-84 *)
  Definition surface_T (ni : Z) (X Y : nd F) (zonally_uniform : bool) : res (nd F) :=
    let Ts := np_map (fun y => poly_T (normed y)) Y in
    let! Ts := if zonally_uniform then Ok (np_tile ni Ts) else np_zip sub Ts (np_map (fun x => lit 15 (-1) * x) X) in
    let! lo := np_min Ts in
    let! hi := np_max Ts in
    Ok (np_map (fun t => (t - lo) / (hi - lo) * (Tmax - Tmin) + Tmin) Ts).

  (** lines 91-96 *)
  Definition poly_S (x : F) : F :=
    lit 2221 (-4) * fpow x 4 + lit (-9487) (-5) * fpow x 3 + lit (-1355) (-3) * fpow x 2 + lit (-126) (-3) * x + lit 3559 (-2).

  (** lines 91-106 *)
  Definition surface_S (ni nj : Z) (X Y : nd F) (SSSSa : F) (zonally_uniform : bool) : res (nd F) :=
    let Ss := np_map (fun y => poly_S (normed y)) Y in
    let! Ss := if zonally_uniform then Ok (np_tile ni Ss)
               else np_zip add Ss (np_map (fun x => (lit 4 (-1) + lit 5 (-1) * x) - lit 8 (-1) * fpow x 2) X) in
    let! l := np_linspace SSSSa zero nj in
    np_zip add Ss (along1 l).

  (** lines 114-115: linear interpolation from the surface to the bottom *)
  Definition fill (nk : Z) (bottom surface : nd F) : res (nd F) :=
    let! l := np_linspace zero one nk in
    let! d := np_zip sub bottom surface in
    let! m := np_zip mul (along2 l) d in
    np_zip add m surface.

  (** lines 117-127 *)
  Definition walls (wrap0 wrap1 : bool) (x : nd F) : res (nd F) :=
    let! x := if wrap0 then Ok x else wall0 x in
    if wrap1 then Ok x else wall1 x.

  (** lines 4-127, the arrays S, T and P *)
  Definition synthocean (ni nj nk : Z) (pbot SSSSa : F) (zonally_uniform wrap0 wrap1 : bool) : res (nd F * nd F * list F) :=
    let! x := np_linspace (lit (-1) 0) one ni in
    let X := along0 x in
    let! y := np_linspace Ysouth Ynorth nj in
    let Y := along1 y in
    let! Ts := surface_T ni X Y zonally_uniform in
    let! Ss := surface_S ni nj X Y SSSSa zonally_uniform in
    let! tb := np_linspace zero one nj in
    let Tb := np_map (fun t => t + (Tmin - lit 1 (-1))) (along1 tb) in
    let! sb := np_linspace (lit 347 (-1)) (lit 345 (-1)) nj in
    let Sb := along1 sb in
    let! Sa := fill nk Sb Ss in
    let! Ta := fill nk Tb Ts in
    let! p := np_linspace zero one nk in
    let Pa := map (fun r => fpow r 3 * pbot) p in
    let! Sa := walls wrap0 wrap1 Sa in
    let! Ta := walls wrap0 wrap1 Ta in
    Ok (Sa, Ta, Pa).

  (** lines 131-162: the dict g, for positive nx and ny *)
  Record geometry := mk_geometry {
    g_nx : Z; g_ny : Z; g_nz : Z; rSphere : F; resx : F; resy : F;
    XGvec : list F; YGvec : list F; XCvec : list F; YCvec : list F;
    DXGvec : list F; DYGsc : F; DXCvec : list F; DYCsc : F;
    RACvec : list F; RAWvec : list F; RASvec : list F; RAZvec : list F }.

  Variables (np_sin np_cos : F -> F) (np_pi : F).

  Definition geometry_of (nx ny nz : Z) : geometry :=
    let r := lit 6370000 0 in
    let rx := of_Z nx / lit 360 0 in
    let ry := of_Z ny / (Ynorth - Ysouth) in
    let deg2rad := np_pi / lit 180 0 in
    let arange (n : Z) := map of_nat (seq 0 (Z.to_nat n)) in
    let XG := map (fun i => zero + i / rx) (arange nx) in
    let YG := map (fun i => Ysouth + i / ry) (arange ny) in
    let XC := map (fun x => x + one / (lit 2 0 * rx)) XG in
    let YC := map (fun y => y + one / (lit 2 0 * ry)) YG in
    let DXG := map (fun y => r * np_cos (y * deg2rad) / rx * deg2rad) YG in
    let DYG := r * deg2rad / ry in
    let DXC := map (fun y => r * np_cos (y * deg2rad) / rx * deg2rad) YC in
    let RAC := map (fun y => r * r / rx * deg2rad * fabs (np_sin ((y + one / ry) * deg2rad) - np_sin (y * deg2rad))) YG in
    let RAS := map (fun y => r * r / rx * deg2rad * fabs (np_sin (y * deg2rad) - np_sin ((y - one / ry) * deg2rad))) YC in
    mk_geometry nx ny nz r rx ry XG YG XC YC DXG DYG DXC DYG RAC RAC RAS RAS.
End SYNTHOCEAN.
