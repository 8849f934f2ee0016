(** * Properties C47 and C51: the synthetic ocean (synthocean.py) *)
From Coq Require Import ZArith Bool Reals Lra Lia List.
From Verif Require Import Num XR SF Res Arr Nd M_synthocean S_synthocean P_synthocean P_synthocean2 P_synthgeom Ex_synthocean.
Import ListNotations.
Local Open Scope R_scope.

(** ** C47: every shape with at least one cast is accepted, and no other *)
Theorem C47_accepted :
  forall ni nj nk pbot a zonally_uniform wrap0 wrap1,
  ((0 < ni /\ 0 < nj /\ 0 <= nk)%Z <-> is_ok (synthocean ni nj nk (Fin pbot) (Fin a) zonally_uniform wrap0 wrap1) = true)
  /\ (~ (0 < ni /\ 0 < nj /\ 0 <= nk)%Z -> synthocean ni nj nk (Fin pbot) (Fin a) zonally_uniform wrap0 wrap1 = Err ValueError).
Proof. exact accepted. Qed.
Print Assumptions C47_accepted.

(** S and T are NaN exactly on the walls, unless the surface temperature is the same everywhere:
    then T is NaN everywhere *)
Theorem C47_walls :
  forall ni nj nk pbot a zonally_uniform wrap0 wrap1 S T P, (0 < ni)%nat -> (0 < nj)%nat ->
  synthocean (Z.of_nat ni) (Z.of_nat nj) (Z.of_nat nk) (Fin pbot) (Fin a) zonally_uniform wrap0 wrap1 = Ok (S, T, P) ->
  wf S /\ wf T /\ shape S = [ni; nj; nk] /\ shape T = [ni; nj; nk] /\ length P = nk
  /\ forall i j k, (i < ni)%nat -> (j < nj)%nat -> (k < nk)%nat ->
       (on_wall wrap0 wrap1 i j -> at_ S [i; j; k] = Some NaN /\ at_ T [i; j; k] = Some NaN)
       /\ (~ on_wall wrap0 wrap1 i j -> finite (at_ S [i; j; k]) /\ (varied ni nj zonally_uniform -> finite (at_ T [i; j; k])))
       /\ (~ varied ni nj zonally_uniform -> at_ T [i; j; k] = Some NaN).
Proof. exact walls_exactly. Qed.
Print Assumptions C47_walls.

(** "NaN exactly on the walls" is false of a zonally uniform ocean with one latitude *)
Theorem C47_no_wall_refuted :
  exists S T P, synthocean 2 1 2 (q 4000) (q 0) true true true = Ok (S, T, P)
    /\ S = mk_nd [2; 1; 2]%nat (elems S) /\ forallb (fun v => negb (isnan v)) (elems S) = true /\ T = mk_nd [2; 1; 2]%nat [nan; nan; nan; nan].
Proof. exact no_wall. Qed.
Print Assumptions C47_no_wall_refuted.

(** pressures increase strictly from 0 to pbot *)
Theorem C47_pressures :
  forall ni nj nk pbot a zonally_uniform wrap0 wrap1 S T P, (0 < ni)%nat -> (0 < nj)%nat ->
  synthocean (Z.of_nat ni) (Z.of_nat nj) (Z.of_nat nk) (Fin pbot) (Fin a) zonally_uniform wrap0 wrap1 = Ok (S, T, P) ->
  (2 <= nk)%nat ->
  nth_error P 0 = Some (Fin 0) /\ nth_error P (nk - 1) = Some (Fin pbot)
  /\ (0 < pbot -> forall k, (k + 1 < nk)%nat -> exists p q, nth_error P k = Some (Fin p) /\ nth_error P (k + 1) = Some (Fin q) /\ p < q).
Proof. exact pressures. Qed.
Print Assumptions C47_pressures.

(** "P[-1] is pbot" is false with one level *)
Theorem C47_bottom_refuted : exists S T, synthocean 2 2 1 (q 4000) (q 0) false true true = Ok (S, T, [q 0]).
Proof. exact bottom. Qed.
Print Assumptions C47_bottom_refuted.

(** off the walls, S and T go linearly (in the level number) from their surface values to bottom
    values that freshen and warm linearly northwards *)
Theorem C47_profiles :
  forall ni nj nk pbot a zonally_uniform wrap0 wrap1 S T P, (0 < ni)%nat -> (0 < nj)%nat ->
  synthocean (Z.of_nat ni) (Z.of_nat nj) (Z.of_nat nk) (Fin pbot) (Fin a) zonally_uniform wrap0 wrap1 = Ok (S, T, P) ->
  (2 <= nk)%nat -> varied ni nj zonally_uniform ->
  forall i j, (i < ni)%nat -> (j < nj)%nat -> ~ on_wall wrap0 wrap1 i j ->
  let sb := 347 / 10 - 2 / 10 * fraction j nj in let tb := fraction j nj - 19 / 10 in
  exists s t, forall k, (k < nk)%nat -> at_ S [i; j; k] = Some (Fin (s + fraction k nk * (sb - s)))
                                     /\ at_ T [i; j; k] = Some (Fin (t + fraction k nk * (tb - t))).
Proof. exact profiles. Qed.
Print Assumptions C47_profiles.

(** temperatures lie between -1.9 and 30, at the surface between -1.8 and 30 *)
Theorem C47_temperatures :
  forall ni nj nk pbot a zonally_uniform wrap0 wrap1 S T P, (0 < ni)%nat -> (0 < nj)%nat ->
  synthocean (Z.of_nat ni) (Z.of_nat nj) (Z.of_nat nk) (Fin pbot) (Fin a) zonally_uniform wrap0 wrap1 = Ok (S, T, P) ->
  varied ni nj zonally_uniform ->
  forall i j, (i < ni)%nat -> (j < nj)%nat -> ~ on_wall wrap0 wrap1 i j ->
  (forall k, (k < nk)%nat -> exists t, at_ T [i; j; k] = Some (Fin t) /\ -19 / 10 <= t <= 30)
  /\ ((0 < nk)%nat -> exists t, at_ T [i; j; 0%nat] = Some (Fin t) /\ -18 / 10 <= t <= 30).
Proof. exact temperatures. Qed.
Print Assumptions C47_temperatures.

(** and both bounds are reached at the surface when there are no walls *)
Theorem C47_extremes :
  forall ni nj nk pbot a zonally_uniform wrap0 wrap1 S T P, (0 < ni)%nat -> (0 < nj)%nat ->
  synthocean (Z.of_nat ni) (Z.of_nat nj) (Z.of_nat nk) (Fin pbot) (Fin a) zonally_uniform wrap0 wrap1 = Ok (S, T, P) ->
  varied ni nj zonally_uniform -> wrap0 = true -> wrap1 = true -> (0 < nk)%nat ->
  (exists i j, (i < ni)%nat /\ (j < nj)%nat /\ at_ T [i; j; 0%nat] = Some (Fin (-18 / 10)))
  /\ (exists i j, (i < ni)%nat /\ (j < nj)%nat /\ at_ T [i; j; 0%nat] = Some (Fin 30)).
Proof. exact extremes. Qed.
Print Assumptions C47_extremes.

(** the anomaly SSSSa is added to the surface salinity in full in the south, linearly less
    northwards and not at all in the north; T does not depend on it, nor on pbot *)
Theorem C47_anomaly :
  forall ni nj nk pbot a pbot' a' zonally_uniform wrap0 wrap1 S T P S' T' P', (0 < ni)%nat -> (0 < nj)%nat ->
  synthocean (Z.of_nat ni) (Z.of_nat nj) (Z.of_nat nk) (Fin pbot) (Fin a) zonally_uniform wrap0 wrap1 = Ok (S, T, P) ->
  synthocean (Z.of_nat ni) (Z.of_nat nj) (Z.of_nat nk) (Fin pbot') (Fin a') zonally_uniform wrap0 wrap1 = Ok (S', T', P') ->
  T = T' /\ forall i j, (i < ni)%nat -> (j < nj)%nat -> (0 < nk)%nat -> ~ on_wall wrap0 wrap1 i j ->
    exists s s', at_ S [i; j; 0%nat] = Some (Fin s) /\ at_ S' [i; j; 0%nat] = Some (Fin s') /\ s - s' = (1 - fraction j nj) * (a - a').
Proof. exact tilt. Qed.
Print Assumptions C47_anomaly.

(** zonally uniform: casts of the same latitude, off the walls, are equal *)
Theorem C47_uniform :
  forall ni nj nk pbot a zonally_uniform wrap0 wrap1 S T P, (0 < ni)%nat -> (0 < nj)%nat ->
  synthocean (Z.of_nat ni) (Z.of_nat nj) (Z.of_nat nk) (Fin pbot) (Fin a) zonally_uniform wrap0 wrap1 = Ok (S, T, P) ->
  zonally_uniform = true ->
  forall i i' j k, (i < ni)%nat -> (i' < ni)%nat -> (j < nj)%nat -> (k < nk)%nat ->
  ~ on_wall wrap0 wrap1 i j -> ~ on_wall wrap0 wrap1 i' j -> at_ S [i; j; k] = at_ S [i'; j; k] /\ at_ T [i; j; k] = at_ T [i'; j; k].
Proof. exact uniform. Qed.
Print Assumptions C47_uniform.

(** ** C51: the geometry, over the reals *)
Theorem C51_coordinates :
  forall nx ny nz, (0 < nx)%nat -> (0 < ny)%nat ->
  let g := @geometry_of R RNum sin cos PI (Z.of_nat nx) (Z.of_nat ny) nz in
  length (XGvec g) = nx /\ length (XCvec g) = nx /\ length (YGvec g) = ny /\ length (YCvec g) = ny
  /\ (forall i, (i < nx)%nat -> let x k := 360 * INR k / INR nx in
        nth_error (XGvec g) i = Some (x i) /\ nth_error (XCvec g) i = Some ((x i + x (i + 1)%nat) / 2))
  /\ (forall j, (j < ny)%nat -> let y k := -80 + 140 * INR k / INR ny in
        nth_error (YGvec g) j = Some (y j) /\ nth_error (YCvec g) j = Some ((y j + y (j + 1)%nat) / 2)).
Proof. exact coordinates. Qed.
Print Assumptions C51_coordinates.

(** nx cells go round the parallel; ny cells go from 80 degrees South to 60 degrees North *)
Theorem C51_distances :
  forall nx ny nz, (0 < nx)%nat -> (0 < ny)%nat ->
  let g := @geometry_of R RNum sin cos PI (Z.of_nat nx) (Z.of_nat ny) nz in
  (forall j y, nth_error (YGvec g) j = Some y -> exists d, nth_error (DXGvec g) j = Some d /\ INR nx * d = parallel (rSphere g) y)
  /\ (forall j y, nth_error (YCvec g) j = Some y -> exists d, nth_error (DXCvec g) j = Some d /\ INR nx * d = parallel (rSphere g) y)
  /\ INR ny * DYGsc g = rSphere g * radians 140 /\ DYCsc g = DYGsc g.
Proof. exact distances. Qed.
Print Assumptions C51_distances.

(** the tracer cells tile the zone; those around southern edges do, half a cell further south, if
    they do not reach beyond the pole *)
Theorem C51_areas :
  forall nx ny nz, (0 < nx)%nat -> (0 < ny)%nat ->
  let g := @geometry_of R RNum sin cos PI (Z.of_nat nx) (Z.of_nat ny) nz in let edge j := -80 + 140 * INR j / INR ny in
  INR nx * total (RACvec g) = zone (rSphere g) (-80) 60
  /\ (forall j, (j < ny)%nat -> exists a, nth_error (RACvec g) j = Some a /\ 0 < a
        /\ INR nx * a = zone (rSphere g) (edge j) (edge (j + 1)%nat))
  /\ RAWvec g = RACvec g
  /\ RAZvec g = RASvec g
  /\ ((7 <= ny)%nat -> INR nx * total (RASvec g) = zone (rSphere g) (-80 - 70 / INR ny) (60 - 70 / INR ny)).
Proof. exact areas. Qed.
Print Assumptions C51_areas.

(** ** Concrete cases *)
Example C47_case : exists S T P, synthocean 3 2 2 (Fin 4000) (Fin (3 / 10)) false false true = Ok (S, T, P)
  /\ at_ S [0; 1; 1]%nat = Some NaN /\ finite (at_ S [1; 1; 1]%nat) /\ finite (at_ T [2; 0; 1]%nat).
Proof.
  destruct (whole 3 2 2 4000 (3 / 10) false false true ltac:(lia) ltac:(lia)) as (S & T & P & lo & hi & E & _).
  exists S, T, P. split; [exact E|].
  destruct (C47_walls 3 2 2 4000 (3 / 10) false false true S T P ltac:(lia) ltac:(lia) E) as (_ & _ & _ & _ & _ & H). split; [|split].
  - apply (H 0 1 1)%nat; try lia. left. auto.
  - apply (H 1 1 1)%nat; try lia. unfold on_wall. intros [[? ?]|[? ?]]; discriminate.
  - apply (H 2 0 1)%nat; try lia; [|left; lia]. unfold on_wall. intros [[? ?]|[? ?]]; discriminate.
Qed.
