(** * Choosing an equation of state: eos/tools.py:1-179 and lib.py:367-390

    [lru_cache] is left out here (see M_cache); so is [vectorize_eos] (eos/tools.py:182-207),
    which applies a scalar function to each element of broadcast arrays.  A function value is
    one returning a number or one returning a pair; a module attribute that is not one of the
    functions named by [modules] and the three suffixes gives AttributeError. *)
From Coq Require Import String ZArith List.
From Verif Require Import Num Res M_eos_base M_jmd95 M_jmdfwg06 M_gsw.
Import ListNotations.
Open Scope num_scope.

Section TOOLS.
  Context {F : Type} {N : Num F}.
  Variable dv : F -> F -> res F.

  (** a Python function of (s, t, p) *)
  Inductive fn : Type :=
  | F1 (f : F -> F -> F -> res F)
  | F2 (f : F -> F -> F -> res (F * F)).

  (** an [eos] argument: a str, a function, a tuple or list, or anything else *)
  Inductive arg : Type :=
  | AStr (s : string)
  | AFun (f : fn)
  | ATup (l : list arg)
  | AOther.

  (** eos/tools.py:8 *)
  Definition modules : list (string * string) :=
    [ ("gsw", "specvol"); ("jmd95", "rho"); ("jmdfwg06", "rho") ]%string.

  Fixpoint lookup {A} (k : string) (l : list (string * A)) : option A :=
    match l with
    | [] => None
    | (k', v) :: r => if String.eqb k k' then Some v else lookup k r
    end.

  (** importlib.import_module("neutralocean.eos." + m).__getattribute__(name) *)
  Definition attributes : list (string * fn) :=
    [ ("gsw.specvol", F1 gsw_specvol); ("gsw.specvol_s_t", F2 (gsw_specvol_s_t dv));
      ("gsw.specvol_p", F1 gsw_specvol_p);
      ("jmd95.rho", F1 (jmd95_rho dv)); ("jmd95.rho_s_t", F2 (jmd95_rho_s_t dv));
      ("jmd95.rho_p", F1 (jmd95_rho_p dv));
      ("jmdfwg06.rho", F1 (jmdfwg06_rho dv)); ("jmdfwg06.rho_s_t", F2 (jmdfwg06_rho_s_t dv));
      ("jmdfwg06.rho_p", F1 (jmdfwg06_rho_p dv)) ]%string.
  Definition attribute (m name : string) : res fn :=
    match lookup (m ++ "." ++ name)%string attributes with
    | Some f => Ok f
    | None => Err AttributeError
    end.

  (** eos/tools.py:127-179.  z_to_p ** num_p_derivs is a repeated multiplication; a pair
      times a number does not compile. *)
  Definition make_bsq (f : fn) (grav rho_c : F) (num_p_derivs : nat) : fn :=
    let z_to_p := lit 1 (-4) * grav * rho_c in
    match num_p_derivs with
    | O =>
        match f with
        | F1 f => F1 (fun s t z => f s t (z * z_to_p))
        | F2 f => F2 (fun s t z => f s t (z * z_to_p))
        end
    | _ =>
        let factor := fpow z_to_p num_p_derivs in
        match f with
        | F1 f => F1 (fun s t z => let! v := f s t (z * z_to_p) in Ok (v * factor))
        | F2 _ => F2 (fun _ _ _ => Err TypeError)
        end
    end.

  (** eos/tools.py:11-37 *)
  Definition _make_eos (eos : arg) (derivs : string) (num_p_derivs : nat) (grav rho_c : option F) : res fn :=
    let! f := match eos with
              | AStr s =>
                  match lookup s modules with
                  | Some base => attribute s (base ++ derivs)
                  | None => Err ValueError
                  end
              | AFun f => Ok f
              | _ => Err TypeError
              end in
    match grav, rho_c with
    | Some g, Some r => Ok (make_bsq f g r num_p_derivs)
    | _, _ => Ok f
    end.

  (** eos/tools.py:84 *)
  Definition make_eos (eos : arg) (grav rho_c : option F) : res fn := _make_eos eos "" 0 grav rho_c.
  (** eos/tools.py:105 *)
  Definition make_eos_s_t (eos : arg) (grav rho_c : option F) : res fn := _make_eos eos "_s_t" 0 grav rho_c.
  (** eos/tools.py:124 *)
  Definition make_eos_p (eos : arg) (grav rho_c : option F) : res fn := _make_eos eos "_p" 1 grav rho_c.

  (** lib.py:367-390 *)
  Definition _process_eos (eos : arg) (grav rho_c : option F) (need_s_t : bool) : res (fn * option fn) :=
    match eos with
    | AStr _ =>
        if need_s_t then
          let! f_s_t := make_eos_s_t eos grav rho_c in
          let! f := make_eos eos grav rho_c in
          Ok (f, Some f_s_t)
        else
          let! f := make_eos eos grav rho_c in
          Ok (f, None)
    | _ =>
        if need_s_t then
          let '(eos, eos_s_t) := match eos with
                                 | ATup [a; b] => (a, Some b)
                                 | _ => (eos, None)
                                 end in
          match eos, eos_s_t with
          | AFun f, Some (AFun g) => Ok (f, Some g)
          | _, _ => Err ValueError
          end
        else
          let eos := match eos with
                     | ATup (a :: _) => a
                     | _ => eos
                     end in
          match eos with
          | AFun f => Ok (f, None)
          | _ => Err ValueError
          end
    end.
End TOOLS.
