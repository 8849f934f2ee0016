(** * Model of neutralocean/ppinterp/tools.py: make_pp *)
From Coq Require Import ZArith Bool List String.
From Verif Require Import Num Res.
Import ListNotations.
Local Open Scope string_scope.

(** The functions defined at top level in ppinterp/linear.py and
    ppinterp/pchip.py ([def] lines of these files). *)
Definition module_functions (m : string) : list string :=
  if m =? "neutralocean.ppinterp.linear" then
    ["linear_coeffs"; "linear_coeffs_1"; "_linear_coeffs"; "_linear_coeffs_i";
     "linear_interp_1"; "linear_interp_1_two"; "linear_interp"; "linear_interp_two"]
  else if m =? "neutralocean.ppinterp.pchip" then
    ["pchip_coeffs"; "pchip_interp"; "pchip_interp_two"; "pchip_coeffs_1"; "pchip_coeffs_1_nonan";
     "_pchip_coeffs_1"; "_pchip_coeffs_i"; "_pchip_coeffs"; "pchip_interp_1"; "pchip_interp_1_two";
     "_pchip_interp"; "_pchip_interp_two"]
  else [].

Definition mem (x : string) (l : list string) : bool := existsb (String.eqb x) l.

(** tools.py:63-65: import_module(m).__getattribute__(name) *)
Definition getattribute (m name : string) : res string :=
  if mem name (module_functions m) then Ok name else Err AttributeError.

(** tools.py:5-65; the function object is represented by its name.
    num_dep_vars is an int (bools and floats equal to 1, 2 are not distinguished). *)
Definition make_pp (interpolant kind out : string) (nans : bool) (num_dep_vars : Z) : res string :=
  if negb (mem interpolant ["linear"; "pchip"]) then Err ValueError
  else if negb (mem kind ["1"; "u"]) then Err ValueError
  else if negb (mem out ["coeffs"; "interp"]) then Err ValueError
  else if negb ((num_dep_vars =? 1)%Z || (num_dep_vars =? 2)%Z) then Err ValueError
  else if (out =? "coeffs") && negb (num_dep_vars =? 1)%Z then Err ValueError
  else if negb nans && ((out =? "interp") || (kind =? "u")) then Err ValueError
  else
    let kind' := if kind =? "1" then "_1" else "" in
    let nans' := if negb nans && (interpolant =? "pchip") then "_nonan" else "" in
    let ndv' := if (num_dep_vars =? 1)%Z then "" else "_two" in
    getattribute ("neutralocean.ppinterp." ++ interpolant)
                 (interpolant ++ "_" ++ out ++ kind' ++ nans' ++ ndv').
