(** * What make_pp is documented to return *)
From Coq Require Import ZArith Bool List String.
Import ListNotations.
Local Open Scope string_scope.

(** interpolant, kind ("1" one cast, "u" universal function), out, nans, number
    of dependent variables -> name of the function.  The linear coefficients
    need no separate version for data without NaN. *)
Definition pp_table : list (string * string * string * bool * Z * string) := [
  ("linear", "1", "coeffs", true,  1%Z, "linear_coeffs_1");
  ("linear", "1", "coeffs", false, 1%Z, "linear_coeffs_1");
  ("linear", "u", "coeffs", true,  1%Z, "linear_coeffs");
  ("linear", "1", "interp", true,  1%Z, "linear_interp_1");
  ("linear", "1", "interp", true,  2%Z, "linear_interp_1_two");
  ("linear", "u", "interp", true,  1%Z, "linear_interp");
  ("linear", "u", "interp", true,  2%Z, "linear_interp_two");
  ("pchip",  "1", "coeffs", true,  1%Z, "pchip_coeffs_1");
  ("pchip",  "1", "coeffs", false, 1%Z, "pchip_coeffs_1_nonan");
  ("pchip",  "u", "coeffs", true,  1%Z, "pchip_coeffs");
  ("pchip",  "1", "interp", true,  1%Z, "pchip_interp_1");
  ("pchip",  "1", "interp", true,  2%Z, "pchip_interp_1_two");
  ("pchip",  "u", "interp", true,  1%Z, "pchip_interp");
  ("pchip",  "u", "interp", true,  2%Z, "pchip_interp_two") ].
