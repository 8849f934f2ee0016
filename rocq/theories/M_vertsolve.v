(** * Model of neutralocean/surface/_vertsolve.py and neutralocean/surface/isopycnal.py

    The horizontal array of water columns is an [nd] of triples (S[n], T[n],
    P[n]).  The conversion of arguments by lib.py is in M_lib; diagnostics and
    printing are not modelled.  An operation that numba cannot type is
    [TypeError]. *)
From Coq Require Import ZArith Bool List.
From Verif Require Import Num Res Arr Nd M_fzero M_ppinterp.
Import ListNotations.
Local Open Scope num_scope.

Section Vertsolve.
  Context {F : Type} {N : Num F}.
  Variable eos : F -> F -> F -> res F.
  Variable ppc_fn : list F -> list F -> res (list (list F)).
  Variable fuel : nat.

  Notation column := (list F * list F * list F)%type.
  Notation bottle := (F * F * F)%type.

  (** _vertsolve.py:137-141 *)
  Definition zero_potential (ref isoval : F) (P : list F) (Sppc Tppc : list (list F)) (p : F) : res F :=
    let! st := ppval_1_nonan_two p P Sppc Tppc 0 in
    let (s, t) := st in
    let! d := eos s t ref in
    Ok (d - isoval).

  (** _vertsolve.py:144-149 *)
  Definition zero_anomaly (ref : F * F) (isoval : F) (P : list F) (Sppc Tppc : list (list F)) (p : F) : res F :=
    let! st := ppval_1_nonan_two p P Sppc Tppc 0 in
    let (s, t) := st in
    let! d := eos s t p in
    let! d0 := eos (fst ref) (snd ref) p in
    Ok (d - d0 - isoval).

  (** _vertsolve.py:49-76: one water column *)
  Definition vertsolve_1 (zero_func : list F -> list (list F) -> list (list F) -> F -> res F) (tol_p : F) (c : column)
    : res bottle :=
    let '(Sn, Tn, Pn) := c in
    let! kK := valid_range_1_two Sn Pn in
    let (k, K) := kK in
    if Nat.ltb 1 (K - k) then
      let Pn := slice Pn k K in
      let! Sppc := ppc_fn Pn (slice Sn k K) in
      let! Tppc := ppc_fn Pn (slice Tn k K) in
      let f := zero_func Pn Sppc Tppc in
      let! P0 := get Pn 0 in
      let! P1 := get Pn (length Pn - 1) in
      let pn := (P0 + P1) * lit 5 (-1) in
      let! lu := guess_to_bounds f fuel pn P0 P1 in
      let (lb, ub) := lu in
      if isfinite lb then
        let! p := brent f fuel lb ub tol_p in
        let! st := ppval_1_nonan_two p Pn Sppc Tppc 0 in
        let (s, t) := st in
        Ok (s, t, p)
      else Ok (nan, nan, nan)
    else Ok (nan, nan, nan).

  (** _vertsolve.py:39-78 *)
  Definition vertsolve zero_func (tol_p : F) (casts : list column) : res (list bottle) :=
    mapM (vertsolve_1 zero_func tol_p) casts.

  (** _vertsolve.py:86-132: one water column; (s, t, p) is updated *)
  Definition vertsolve_omega_1 (tol_p : F) (x : bottle) (c : column) (ϕ : F) : res bottle :=
    if ϕ =? lit 0 0 then Ok x
    else
      let '(Sn, Tn, Pn) := c in
      let! kK := valid_range_1_two Sn Pn in
      let (k, K) := kK in
      if Nat.ltb 1 (K - k) && isfinite ϕ then
        let '(sn, tn, pn) := x in
        let Pn := slice Pn k K in
        let! Sppc := ppc_fn Pn (slice Sn k K) in
        let! Tppc := ppc_fn Pn (slice Tn k K) in
        let! d := eos sn tn pn in
        let f := zero_potential pn (d + ϕ) Pn Sppc Tppc in
        let! P0 := get Pn 0 in
        let! P1 := get Pn (length Pn - 1) in
        let! lu := guess_to_bounds f fuel pn P0 P1 in
        let (lb, ub) := lu in
        if isfinite lb then
          let! p := brent f fuel lb ub tol_p in
          let! st := ppval_1_nonan_two p Pn Sppc Tppc 0 in
          let (s, t) := st in
          Ok (s, t, p)
        else Ok (nan, nan, nan)
      else Ok (nan, nan, nan).

  (** _vertsolve.py:81-134 *)
  Definition vertsolve_omega (tol_p : F) (xs : list bottle) (casts : list column) (ϕ : list F) : res (list bottle) :=
    mapM (fun n =>
            let! x := get xs n in
            let! ϕn := get ϕ n in
            let! c := get casts n in
            vertsolve_omega_1 tol_p x c ϕn)
         (seq 0 (length xs)).

  (** ** isopycnal.py *)
  Inductive ans := Potential | Anomaly.
  (** what may be passed as [ref]: None, a float, a tuple or list of two
      elements (which may be None), anything else *)
  Inductive refarg := RNone | RFloat (x : F) | RPair (x y : option F) | ROther.
  (** [pin_p]: None, a float, anything else *)
  Inductive pinp := PNone | PFloat (x : F) | POther.
  (** [pin_cast] after _process_pin_cast: None, a tuple, a list *)
  Inductive pincast := CNone | CTuple (t : list Z) | CList (l : list Z).

  Definition is_none_c (c : pincast) := match c with CNone => true | _ => false end.
  Definition is_none_p (p : pinp) := match p with PNone => true | _ => false end.

  (** index into an axis of length n; negative counts from the end *)
  Definition wrap_index (n : nat) (i : Z) : option nat :=
    if (- Z.of_nat n <=? i)%Z && (i <? Z.of_nat n)%Z
    then Some (Z.to_nat (if (i <? 0)%Z then i + Z.of_nat n else i)) else None.

  Fixpoint wrap_all (sh : list nat) (t : list Z) : option (list nat) :=
    match t, sh with
    | [], _ => Some []
    | i :: t, n :: sh =>
        match wrap_index n i, wrap_all sh t with Some j, Some r => Some (j :: r) | _, _ => None end
    | _ :: _, [] => None
    end.

  (** S[pin_cast] does not raise, S of shape sh: a list indexes the first axis *)
  Definition can_index (sh : list nat) (c : pincast) : bool :=
    match c with
    | CNone => true
    | CTuple t => match wrap_all sh t with Some _ => true | None => false end
    | CList l => match sh with
                 | [] => false
                 | n :: _ => forallb (fun i => match wrap_index n i with Some _ => true | None => false end) l
                 end
    end.

  (** isopycnal.py:414-459; sh is the shape of S *)
  Definition check_ref (a : ans) (ref : refarg) (isoval : option F) (pin_cast : pincast) (pin_p : pinp) (sh : list nat)
    : res unit :=
    let nopin := is_none_c pin_cast || is_none_p pin_p in
    let! _ := match ref with
              | RNone => if nopin then Err TypeError else Ok tt
              | _ => match isoval with
                     | None => if nopin then Err TypeError else Ok tt
                     | Some _ => Ok tt
                     end
              end in
    let! _ := match ref with
              | RNone => Ok tt
              | _ => match a, ref with
                     | Potential, RFloat _ => Ok tt
                     | Anomaly, RPair _ _ => Ok tt
                     | _, _ => Err TypeError
                     end
              end in
    let! _ := if can_index sh pin_cast then Ok tt else Err ValueError in
    match pin_p with POther => Err TypeError | _ => Ok tt end.

  (** S[n], T[n], P[n] as one-dimensional arrays; an index that selects
      anything but one water column makes valid_range_1 fail (the kind of
      exception is not always TypeError: p[n] = pin_p with too many indices is
      an IndexError) *)
  Definition column_at (casts : nd column) (c : pincast) : res (nat * column) :=
    match c with
    | CTuple t =>
        if Nat.eqb (length t) (ndim casts) then
          match wrap_all (shape casts) t with
          | Some ix => let! col := get (elems casts) (ravel (shape casts) ix) in Ok (ravel (shape casts) ix, col)
          | None => Err IndexError
          end
        else Err TypeError
    | _ => Err TypeError
    end.

  (** isopycnal.py:386-390, 473-477: interpolate at pin_p in a column *)
  Definition column_values (col : column) (pin_p : F) : res (F * F) :=
    let '(Sn, Tn, Pn) := col in
    let! kK := valid_range_1 (map (fun x => fst x + snd x) (combine Sn Pn)) in
    let (k, K) := kK in
    let Pn := slice Pn k K in
    let! Sppc := ppc_fn Pn (slice Sn k K) in
    let! Tppc := ppc_fn Pn (slice Tn k K) in
    ppval_1_two pin_p Pn Sppc Tppc 0.

  (** isopycnal.py:462-490 *)
  Definition choose_ref_isoval (a : ans) (ref : refarg) (isoval : option F) (pin_cast : pincast) (pin_p : pinp)
      (casts : nd column) : res (refarg * F) :=
    match isoval with
    | Some v => Ok (ref, v)
    | None =>
        let! nc := column_at casts pin_cast in
        match pin_p with
        | PFloat pp =>
            let! st := column_values (snd nc) pp in
            let (s0, t0) := st in
            match a with
            | Potential =>
                let! r := match ref with RNone => Ok pp | RFloat r => Ok r | _ => Err TypeError end in
                let! v := eos s0 t0 r in
                Ok (RFloat r, v)
            | Anomaly =>
                let! r := match ref with
                          | RPair (Some x) (Some y) => Ok (x, y)
                          | RPair _ _ | RNone => Ok (s0, t0)
                          | _ => Err TypeError
                          end in
                let! u := eos s0 t0 pp in
                let! v := eos (fst r) (snd r) pp in
                Ok (RPair (Some (fst r)) (Some (snd r)), u - v)
            end
        | _ => Err TypeError
        end
    end.

  (** isopycnal.py:377-379 *)
  Definition solve_surface (a : ans) (ref : refarg) (isoval tol_p : F) (casts : list column) : res (list bottle) :=
    match a, ref with
    | Potential, RFloat r => vertsolve (zero_potential r isoval) tol_p casts
    | Anomaly, RPair (Some x) (Some y) => vertsolve (zero_anomaly (x, y) isoval) tol_p casts
    | _, _ => Err TypeError
    end.

  (** isopycnal.py:336-411 after the arguments have been processed; nz is the
      length of the vertical dimension.  The result is (s, t, p), ref, isoval. *)
  Definition isopycnal (a : ans) (ref : refarg) (isoval : option F) (pin_cast : pincast) (pin_p : pinp)
      (nz : nat) (casts : nd column) (tol_p : F) : res (list bottle * refarg * F) :=
    let! _ := check_ref a ref isoval pin_cast pin_p (shape casts ++ [nz]) in
    let! ri := choose_ref_isoval a ref isoval pin_cast pin_p casts in
    let (ref, isoval) := ri in
    let! x := solve_surface a ref isoval tol_p (elems casts) in
    let! x := match pin_p with
              | PFloat pp =>
                  let! nc := column_at casts pin_cast in
                  let! st := column_values (snd nc) pp in
                  set x (fst nc) (fst st, snd st, pp)
              | _ => Ok x
              end in
    Ok (x, ref, isoval).
End Vertsolve.
Arguments RNone {F}. Arguments ROther {F}. Arguments PNone {F}. Arguments POther {F}.
Arguments RFloat {F} x. Arguments RPair {F} x y. Arguments PFloat {F} x.
