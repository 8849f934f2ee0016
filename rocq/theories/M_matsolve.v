(** * Model of the matrix problems of neutralocean/surface/omega.py (477-693)

    s, t, p are the 1D arrays used by omega_surf (so the final reshape does
    nothing), as a list of bottles.  Sparse matrices are functions of row and
    column; csc_matrix sums repeated entries.  The solvers of scipy are arguments:
    spsolve gets the number of rows, the matrix and the right hand side, lsqr
    also the number of columns. *)
From Coq Require Import ZArith List Bool.
From Verif Require Import Num Res Arr M_graph M_lib M_ntp.
Import ListNotations.
Local Open Scope num_scope.

(** numpy indexing x[i] and x[i] = v, for i >= 0; x[idx] = vals *)
Definition np_get {A} (x : list A) (i : nat) : res A :=
  match nth_error x i with Some v => Ok v | None => Err IndexError end.
Definition np_set {A} (x : list A) (i : nat) (v : A) : res (list A) :=
  if Nat.ltb i (length x) then Ok (upd x i v) else Err IndexError.
Definition np_set_all {A} (x : list A) (idx : list nat) (vals : list A) : res (list A) :=
  if Nat.eqb (length vals) (length idx)
  then for_each (combine idx vals) (fun iv x => np_set x (fst iv) (snd iv)) x
  else Err ValueError.

(** x[mask] for a boolean mask *)
Definition np_mask {A} (x : list A) (mask : list bool) : res (list A) :=
  if Nat.eqb (length x) (length mask) then Ok (map fst (filter snd (combine x mask))) else Err IndexError.

Section Matsolve.
  Context {F : Type} {Nm : Num F}.
  Notation bottle := (F * F * F)%type.
  Notation matrix := (nat -> nat -> F).
  Variable eos_s_t : F -> F -> F -> res (F * F).
  Variable spsolve : nat -> matrix -> list F -> list F.
  Variable lsqr : nat -> nat -> matrix -> list F -> list F.

  (** omega.py:651-693: edges between nodes of m relabelled by position in m,
      scaled errors, geometric factors, position of mref (-1 if not in m) *)
  Definition matsolve_helper (stp : list bottle) (edges : list (nat * nat)) (distratio : geom) (m : list nat) (mref : nat)
    : res (list (nat * nat) * list F * list F * Z) :=
    let! remap := np_set_all (repeat (-1)%Z (length stp)) m (map Z.of_nat (seq 0 (length m))) in
    let! ge := mapM (fun e => let! ra := np_get remap (fst e) in
                              let! rb := np_get remap (snd e) in
                              Ok ((0 <=? ra)%Z && (0 <=? rb)%Z)) edges in
    let! edges := np_mask edges ge in
    let! e := ntp_epsilon_errors eos_s_t stp (GTuple edges) in
    let! ef :=
      match distratio with
      | Sc r =>
          let fac := repeat r (length e) in
          if r =? one then Ok (e, fac) else (let! e := np_bin mul e fac in Ok (e, fac))
      | Ar l =>
          let! fac := np_mask l ge in
          let! e := np_bin mul e fac in
          Ok (e, fac)
      end in
    let (e, fac) := ef in
    let! ab := mapM (fun e => let! ra := np_get remap (fst e) in
                              let! rb := np_get remap (snd e) in
                              Ok (Z.to_nat ra, Z.to_nat rb)) edges in
    let! ref := np_get remap mref in
    Ok (ab, e, fac, ref).

  (** omega.py:505-507, 594-596 *)
  Definition isolated (n : nat) (m : list nat) : res (list F) :=
    let! m0 := np_get m 0 in
    np_set (repeat nan n) m0 (lit 0 0).

  (** omega.py:543-648 *)
  Definition matsolve_poisson (stp : list bottle) (edges : list (nat * nat)) (distratio : geom) (m : list nat) (mref : nat)
    : res (list F) :=
    let N := length m in
    if Nat.leb N 1 then isolated (length stp) m
    else
      let! h := matsolve_helper stp edges distratio m mref in
      let '(ab, e, fac, ref) := h in
      let a := map (fun e => Z.of_nat (fst e)) ab in
      let b := map (fun e => Z.of_nat (snd e)) ab in
      let! out := aggsum e a N in
      let! inc := aggsum e b N in
      let! D := np_bin sub out inc in
      let! fa := aggsum fac a N in
      let! fb := aggsum fac b N in
      let! diag := np_bin add fa fb in
      let rc := ab ++ map (fun e => (snd e, fst e)) ab ++ map (fun k => (k, k)) (seq 0 N) in
      let v := map opp fac ++ map opp fac ++ diag in
      let! r := np_index N ref in
      let L := fun i j => if Nat.eqb i r && Nat.eqb j r then coo_entry rc v i j + one else coo_entry rc v i j in
      let! ϕ := np_set_all (repeat nan (length stp)) m (spsolve N L D) in
      np_set ϕ mref (lit 0 0).

  (** omega.py:477-540; csc_matrix rejects a negative column *)
  Definition matsolve_gradient (stp : list bottle) (edges : list (nat * nat)) (sqrtdistratio : geom) (m : list nat) (mref : nat)
    : res (list F) :=
    let N := length m in
    if Nat.leb N 1 then isolated (length stp) m
    else
      let! h := matsolve_helper stp edges sqrtdistratio m mref in
      let '(ab, e, fac, ref) := h in
      let rhs := map opp e ++ [lit 0 0] in
      let E := length ab in
      if (ref <? 0)%Z then Err ValueError
      else
        let ref := Z.to_nat ref in
        let c := map fst ab ++ map snd ab ++ [ref] in
        let r := seq 0 E ++ seq 0 E ++ [E] in
        let v := map opp fac ++ fac ++ [lit 1 (-2)] in
        let mat := coo_entry (combine r c) v in
        let sol := lsqr (S E) N mat rhs in
        let! s0 := np_get sol ref in
        np_set_all (repeat nan (length stp)) m (map (fun x => x - s0) sol).
End Matsolve.
