(** * Specification vocabulary for the entry points: data with a vertical axis, surfaces with the horizontal axes *)
From Coq Require Import String ZArith List Bool Reals.
From Verif Require Import Num XR Res Arr Nd M_lib M_ntp M_surfaces S_lib S_omega S_eos S_interp S_traj S_vertsolve S_ntp S_mixed_layer S_named.
Import ListNotations.

Section Any.
  Context {F : Type} {Nm : Num F}.
  Notation data := (@data F).
  Notation column := (list F * list F * list F)%type.
  Notation bottle := (F * F * F)%type.

  (** the integer z means axis number i of m axes *)
  Definition axis_index (m i : nat) (z : Z) : Prop := (i < m)%nat /\ (z = Z.of_nat i \/ z = Z.of_nat i - Z.of_nat m)%Z.

  (** v is the name, or the number, of dimension number i of the labelled array X; it has a coordinate *)
  Definition labelled (v : vdim) (i : nat) (X : data) : Prop :=
    forall ds, dims X = Some ds -> NoDup ds /\ length ds = ndim (arr X)
      /\ exists name, nth_error ds i = Some name /\ In name (coords X) /\ (v = VName name \/ exists z, v = VInt z /\ axis_index (ndim (arr X)) i z).
  (** v is axis number i of X, labelled or not *)
  Definition vertical (v : vdim) (i : nat) (X : data) : Prop :=
    labelled v i X /\ (dims X = None -> exists z, v = VInt z /\ axis_index (ndim (arr X)) i z).

  (** salinity, temperature and pressure with n levels on the axis v, the horizontal axes
      having lengths s1 ++ s2; the column at the horizontal position h is c h.  The
      pressures are given for each position, or once for all. *)
  Record water_columns (S T P : data) (v : vdim) (s1 : list nat) (n : nat) (s2 : list nat) (c : list nat -> column) : Prop := {
    wc_S : wf (arr S) /\ shape (arr S) = s1 ++ n :: s2;
    wc_T : wf (arr T) /\ shape (arr T) = s1 ++ n :: s2;
    wc_n : (0 < n)%nat;
    wc_v : vertical v (length s1) S /\ labelled v (length s1) T;
    wc_P : wf (arr P) /\ (shape (arr P) = s1 ++ n :: s2
             /\ (forall h1 h2, valid s1 h1 -> valid s2 h2 -> cast_at (at_ (arr P)) n h1 h2 (snd (c (h1 ++ h2))))
           \/ shape (arr P) = [n] /\ (forall h, valid (s1 ++ s2) h -> snd (c h) = elems (arr P)));
    wc_c : forall h1 h2, valid s1 h1 -> valid s2 h2 ->
      cast_at (at_ (arr S)) n h1 h2 (fst (fst (c (h1 ++ h2)))) /\ cast_at (at_ (arr T)) n h1 h2 (snd (fst (c (h1 ++ h2)))) }.

  (** Y is labelled like X, without dimension number i *)
  Definition labelled_like (X : data) (i : nat) (Y : data) : Prop :=
    match dims X, dims Y with
    | None, None => True
    | Some ds, Some ds' => exists d1 name d2, ds = d1 ++ name :: d2 /\ length d1 = i /\ ds' = d1 ++ d2
    | _, _ => False
    end.

  (** the arrays s, t, p hold the surface x *)
  Record holds (S T : data) (s1 s2 : list nat) (s t p : data) (x : list nat -> bottle) : Prop := {
    h_s : wf (arr s) /\ shape (arr s) = s1 ++ s2 /\ labelled_like S (length s1) s;
    h_t : wf (arr t) /\ shape (arr t) = s1 ++ s2 /\ labelled_like T (length s1) t;
    h_p : wf (arr p) /\ shape (arr p) = s1 ++ s2 /\ labelled_like S (length s1) p;
    h_x : forall h, valid (s1 ++ s2) h ->
      at_ (arr s) h = Some (fst (fst (x h))) /\ at_ (arr t) h = Some (snd (fst (x h))) /\ at_ (arr p) h = Some (snd (x h)) }.

  (** the element at the position h of a list in the order of the positions *)
  Definition at_pos (sh : list nat) (x : list bottle) (h : list nat) : bottle := nth (ravel sh h) x (nan, nan, nan).
End Any.

Local Open Scope R_scope.

(** the functions that give the interpolants known by name *)
Inductive named_interp : string -> (nat -> (nat -> R) -> (nat -> R) -> (R -> R) -> Prop) -> Prop :=
| n_linear : named_interp "linear" linear_fun
| n_pchip : named_interp "pchip" pchip_fun.

(** vs and vt are the partial derivatives of v in the domain D *)
Definition partials (D : domain) (v vs vt : R -> R -> R -> R) : Prop :=
  forall s t p, dS D s -> dT D t -> dP D p -> 0 < s -> diff_s v s t p (vs s t p) /\ diff_t v s t p (vt s t p).

(** the edges of a graph of the positions with numbers of the shape sh, and the distances along and across them *)
Record geometry (sh : list nat) (grid : @gridarg xr) (edges : list (nat * nat)) (dist distperp : list R) : Prop := {
  ge_grid : exists gd gp, grid = GDict (Some edges) (Some gd) (Some gp)
    /\ distances gd (length edges) dist /\ distances gp (length edges) distperp;
  ge_edges : Forall (fun e => (fst e < prod sh)%nat /\ (snd e < prod sh)%nat) edges;
  ge_dist : Forall (fun x => 0 < x) dist;
  ge_distperp : Forall (fun x => 0 <= x) distperp }.

(** rms and mav are the norms of the neutrality errors of the surface x: the weighted root
    mean square and mean absolute value over the edges between casts with water *)
Definition neutrality_norms (vs vt : R -> R -> R -> R) (sh : list nat) (edges : list (nat * nat)) (dist distperp : list R)
    (x : list nat -> bottle) (rms mav : R) : Prop :=
  exists e, length e = length edges
    /\ (forall i ha hb, valid sh ha -> valid sh hb -> nth_error edges i = Some (ravel sh ha, ravel sh hb) ->
          (forall wa wb, finite_bottle (x ha) wa -> finite_bottle (x hb) wb -> nth_error e i = Some (Fin (water_error vs vt wa wb)))
          /\ (dry (x ha) \/ dry (x hb) -> nth_error e i = Some NaN))
    /\ let l := samples e dist distperp in
       (total l = 0 -> rms = 0 /\ mav = 0)
       /\ (total l <> 0 -> rms = sqrt (wmean (fun e => e * e) l) /\ mav = wmean Rabs l).

(** number of positions where the surface has a pressure *)
Definition wet_count (sh : list nat) (x : list nat -> bottle) : nat :=
  length (filter (fun h => isfinite (snd (x h))) (all_idx sh)).

(** the diagnostics for the named equation of state with values v: none unless asked for *)
Definition diagnosed (zp : R) (v : R -> R -> R -> R) (diags : bool) (sh : list nat) (edges : list (nat * nat)) (dist distperp : list R)
    (x : list nat -> bottle) (d : option (xr * xr * nat)) : Prop :=
  match d with
  | None => diags = false
  | Some (rms, mav, n) => diags = true /\ n = wet_count sh x
      /\ exists vs vt r m, rms = Fin r /\ mav = Fin m /\ partials (seas zp) (at_depth zp v) vs vt
         /\ neutrality_norms vs vt sh edges dist distperp x r m
  end.

(** pressure pp is in the data of the column *)
Definition has_pressure (c : column) (pp : R) : Prop :=
  exists k K ss ts ps, cast (fst (fst c)) (snd (fst c)) (snd c) k K ss ts ps /\ (k + 1 < K)%nat /\ ps k <= pp <= ps (K - 1)%nat.

(** what pin_cast denotes: a tuple of integers, one for each horizontal axis; an integer is a
    tuple of one; labels (one for each horizontal dimension of S, in their order) stand for
    the position h; an empty dict, for data without labels, is an empty tuple *)
Inductive denotes (S : @data xr) (nv : nat) (index : string -> option (list xr)) (h : list nat) : @pinarg xr -> list Z -> Prop :=
| den_tuple t : denotes S nv index h (APin (PinTuple t)) t
| den_int z : denotes S nv index h (APin (PinInt z)) [z]
| den_dict d d1 name d2 : dims S = Some (d1 ++ name :: d2) -> length d1 = nv -> map fst d = d1 ++ d2 ->
    (forall nm ls, index nm = Some ls -> increasing ls) -> selects (d1 ++ d2) index d h ->
    denotes S nv index h (APin (PinDict d)) (map Z.of_nat h)
| den_empty : dims S = None -> denotes S nv index h (APin (PinDict [])) [].
(** pin_cast means the position h; negative integers count from the end *)
Definition pins (S : @data xr) (nv : nat) (index : string -> option (list xr)) (pin : @pinarg xr) (sh h : list nat) : Prop :=
  exists t, denotes S nv index h pin t /\ indexes sh h t.

(** the same for omega_surf: a tuple or a list of integers that are not negative *)
Definition pins_omega (S : @data xr) (nv : nat) (index : string -> option (list xr)) (pin : @pinarg xr) (h : list nat) : Prop :=
  pin = AList (map Z.of_nat h) \/ denotes S nv index h pin (map Z.of_nat h).

(** p_init is the pressure pp, or an array of pressures with pp at the position h *)
Definition init_at (sh : list nat) (h : list nat) (pp : R) (p_init : @initarg xr) : Prop :=
  match p_init with
  | InitScalar p => p = Fin pp
  | InitArray d => shape (arr d) = sh /\ wf (arr d) /\ at_ (arr d) h = Some (Fin pp)
  | InitOther => False
  end.

(** x is a surface that p_init describes: water of pressure pp at the position h, or water of
    the given pressures where the columns have them *)
Definition initial_surface rel (sh : list nat) (c : list nat -> column) (h : list nat) (pp : R) (p_init : @initarg xr) (x : list nat -> bottle) : Prop :=
  match p_init with
  | InitScalar _ => on_cast rel (c h) (x h) /\ snd (x h) = Fin pp
  | InitArray d => forall h p, valid sh h -> at_ (arr d) h = Some p ->
      (snd (x h) = NaN \/ on_cast rel (c h) (x h) /\ snd (x h) = p)
      /\ (forall r, p = Fin r -> has_pressure (c h) r -> on_cast rel (c h) (x h) /\ snd (x h) = Fin r)
  | InitOther => False
  end.

(** the mixed layer pressures, as an array of the horizontal shape; none is given, or they are above the pressure pp at the position h *)
Definition ml_above (sh : list nat) (h : list nat) (pp : R) (p_ml : @mlarg xr) : Prop :=
  match p_ml with
  | MNone => True
  | MArray a => wf a /\ shape a = sh /\ forall m, at_ a h = Some m -> ltb (Fin pp) m = false
  | MDict _ _ _ _ _ _ _ => False
  end.
Definition ml_list (sh : list nat) (p_ml : @mlarg xr) : list xr :=
  match p_ml with MArray a => elems a | _ => repeat NInf (prod sh) end.
