(** * Model of functions that the package defines but does not call: _process_wrap and
    _interp_casts in neutralocean/lib.py, and neutralocean/eos/gswc.py *)
From Coq Require Import String ZArith Bool List.
From Verif Require Import Num Res Arr Nd.
Import ListNotations.

(** an element of [wrap]: a string, or any other object, of which only the truth value is kept *)
Inductive witem := WName (s : string) | WFlag (b : bool).
(** the argument and the result: None; a string; a tuple (or, if [tuple] is false, a list); anything else *)
Inductive wrap := WNone | WStr (s : string) | WSeq (tuple : bool) (l : list witem) | WOther.

Definition is_name (x : witem) : bool := match x with WName _ => true | WFlag _ => false end.
(** x in wrap, for a sequence of strings *)
Definition named_in (x : string) (l : list witem) : bool :=
  existsb (fun w => match w with WName s => String.eqb x s | WFlag _ => false end) l.

(** lib.py:312-343; [dims] is s.dims, None when s has no such attribute *)
Definition process_wrap (w : wrap) (dims : option (list string)) (diags : bool) : res wrap :=
  match w with
  | WNone => if diags then Err ValueError else Ok WNone
  | WOther => Err TypeError
  | _ =>
      let '(tuple, l) := match w with WStr s => (true, [WName s]) | WSeq t l => (t, l) | _ => (true, []) end in
      let! w :=
        if forallb is_name l then
          match dims with
          | Some ds => Ok (true, map (fun x => WFlag (named_in x l)) ds)
          | None => Err TypeError
          end
        else Ok (tuple, l) in
      if Nat.eqb (length (snd w)) 2 then Ok (WSeq (fst w) (snd w)) else Err TypeError
  end.

Section Casts.
  Context {F : Type}.
  Variable interp_fn : nd F -> nd F -> res (nd F).

  (** lib.py:305-306: Sppc.shape[0:-1] != (ni, nj, nk - 1) *)
  Definition usable (C : option (nd F)) (ni nj nk : nat) : bool :=
    match C with
    | Some C => if list_eq_dec Z.eq_dec (map Z.of_nat (removelast (shape C))) [Z.of_nat ni; Z.of_nat nj; Z.of_nat nk - 1]%Z then true else false
    | None => false
    end.
  Definition provided (C : option (nd F)) (ni nj nk : nat) (P Y : nd F) : res (nd F) :=
    match C with
    | Some C' => if usable C ni nj nk then Ok C' else interp_fn P Y
    | None => interp_fn P Y
    end.
  (** lib.py:302-309; unpacking a shape that is not of length 3 raises ValueError *)
  Definition interp_casts (S T P : nd F) (Sppc Tppc : option (nd F)) : res (nd F * nd F) :=
    match shape S with
    | [ni; nj; nk] =>
        let! Sppc := provided Sppc ni nj nk P S in
        let! Tppc := provided Tppc ni nj nk P T in
        Ok (Sppc, Tppc)
    | _ => Err ValueError
    end.
End Casts.

Section Gswc.
  Context {F : Type} {Nm : Num F}.
  (** the C library: gsw_rho, and gsw.rho_first_derivatives, which returns the derivatives with
      respect to salinity, temperature, and pressure in Pa *)
  Variables (gsw_rho : F -> F -> F -> F) (gsw_first_derivatives : F -> F -> F -> F * F * F).

  (** gswc.py:45-64 *)
  Definition gswc_rho (s t p : F) : F := gsw_rho s t p.
  (** gswc.py:72-97 *)
  Definition gswc_rho_s_t (s t p : F) : F * F :=
    let '(rs, rt, _) := gsw_first_derivatives s t p in (rs, rt).
  (** gswc.py:100-118 *)
  Definition gswc_rho_p (s t p : F) : F :=
    let '(_, _, rp) := gsw_first_derivatives s t p in mul rp (lit 1 4).
End Gswc.
