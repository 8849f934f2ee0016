(** * Model of neutralocean/ntp.py

    s, t, p are the flattened arrays; an array of columns' properties is a list
    of bottles (s, t, p).  Node labels are non-negative.  eos_s_t is the
    function returned by make_eos_s_t. *)
From Coq Require Import ZArith List Bool.
From Verif Require Import Num Res Arr M_graph M_lib.
Import ListNotations.
Local Open Scope num_scope.

Section Ntp.
  Context {F : Type} {Nm : Num F}.
  Notation bottle := (F * F * F)%type.
  Variable eos_s_t : F -> F -> F -> res (F * F).

  (** a distance: a Python float or a 1D array *)
  Inductive geom := Sc (x : F) | Ar (l : list F).
  Definition garr (g : geom) : list F := match g with Sc x => [x] | Ar l => l end.

  (** the grid argument; missing keys are None *)
  Inductive gridarg :=
  | GTuple (edges : list (nat * nat))
  | GDict (edges : option (list (nat * nat))) (dist distperp : option geom)
  | GOther.

  Definition key {A} (x : option A) : res A := match x with Some v => Ok v | None => Err KeyError end.

  (** ntp.py:137-144, one edge *)
  Definition epsilon_1 (x y : bottle) : res F :=
    let '(sa, ta, pa) := x in
    let '(sb, tb, pb) := y in
    let! r := eos_s_t (lit 5 (-1) * (sa + sb)) (lit 5 (-1) * (ta + tb)) (lit 5 (-1) * (pa + pb)) in
    let (rs, rt) := r in
    Ok (rs * (sb - sa) + rt * (tb - ta)).

  (** ntp.py:133-145 *)
  Definition ntp_epsilon_error1 (stp : list bottle) (edges : list (nat * nat)) : res (list F) :=
    mapM (fun e => let! x := get stp (fst e) in let! y := get stp (snd e) in epsilon_1 x y) edges.

  (** ntp.py:10-49.  The test in line 47 is always true (dist is never the
      class float); an argument that is neither tuple nor dict leaves [edges]
      unassigned. *)
  Definition ntp_epsilon_errors (stp : list bottle) (grid : gridarg) : res (list F) :=
    let! ed :=
      match grid with
      | GTuple e => Ok (e, Sc one)
      | GDict e d _ => let! e := key e in Ok (e, match d with Some d => d | None => Sc one end)
      | GOther => Err NameError
      end in
    let (edges, dist) := ed in
    let! e := ntp_epsilon_error1 stp edges in
    np_bin div e (garr dist).

  (** products and quotients of distances; the quotient of two Python floats raises when dividing by 0 *)
  Definition gmul (x y : geom) : res geom :=
    match x, y with
    | Sc x, Sc y => Ok (Sc (x * y))
    | _, _ => let! l := np_bin mul (garr x) (garr y) in Ok (Ar l)
    end.
  Definition gdiv (x y : geom) : res geom :=
    match x, y with
    | Sc x, Sc y => let! q := sdiv x y in Ok (Sc q)
    | _, _ => let! l := np_bin div (garr x) (garr y) in Ok (Ar l)
    end.

  (** np.isfinite as a factor, and np.nansum, where np_sum is np.sum, which may add in any order *)
  Definition finite01 (x : F) : F := if isfinite x then one else zero.
  Definition nansum_by (np_sum : list F -> F) (l : list F) : F := np_sum (map (fun x => if isnan x then zero else x) l).
  (** sums from left to right (numpy's order is pairwise) *)
  Definition nansum : list F -> F := nansum_by fsum.

  (** ntp.py:52-130 *)
  Definition ntp_epsilon_errors_norms_by (np_sum : list F -> F) (stp : list bottle) (grid : gridarg) : res (F * F) :=
    match grid with
    | GDict edges dist distperp =>
        let! edges := key edges in
        let! e := ntp_epsilon_errors stp (GDict (Some edges) None None) in
        let! dist := key dist in
        let! distperp := key distperp in
        let! area := gmul dist distperp in
        let! w := np_bin mul (garr area) (map finite01 e) in
        let denom := np_sum w in
        if denom =? lit 0 0 then Ok (lit 0 0, lit 0 0)
        else
          let! ratio := gdiv distperp dist in
          let! sq := np_bin mul (garr ratio) (map (fun x => x * x) e) in
          let! ab := np_bin mul (garr distperp) (map fabs e) in
          Ok (fsqrt (nansum_by np_sum sq / denom), nansum_by np_sum ab / denom)
    | _ => Err TypeError
    end.
  Definition ntp_epsilon_errors_norms : list bottle -> gridarg -> res (F * F) := ntp_epsilon_errors_norms_by fsum.
End Ntp.
