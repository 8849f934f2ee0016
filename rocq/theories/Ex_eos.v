(** * Equations of state: check values in binary64, and points of the domains *)
From Coq Require Import ZArith Reals Lra List.
From Verif Require Import Num SF Res M_eos_base M_jmd95 M_jmdfwg06 M_gsw S_eos P_eosocean.
Import ListNotations.

(** the values documented in eos/gsw.py:101-125, bit for bit *)
Definition SA : f64 := lit 35 0.
Definition CT : f64 := lit 25 0.
Definition PR : f64 := lit 2000 0.

Example gsw_check_value : gsw_specvol SA CT PR = Ok (lit 969429311180351 (-18)).
Proof. vm_compute. reflexivity. Qed.

Example gsw_check_first : gsw_specvol_first_derivs sdiv SA CT PR =
  Ok (lit (-6842441315932168) (-22), lit 3095166333930331 (-22), lit (-3821664447055098) (-24)).
Proof. vm_compute. reflexivity. Qed.

Example gsw_check_second : gsw_specvol_second_derivs sdiv SA CT PR =
  Ok (lit 7521204828271216 (-25), lit 12378264339269954 (-25), lit 6651570967433596 (-24),
      lit 10954594146512299 (-27), lit 9280142767497533 (-27), lit 11313341817551131 (-29)).
Proof. vm_compute. reflexivity. Qed.

Example gsw_check_third : gsw_specvol_third_derivs sdiv SA CT PR =
  Ok (lit (-1319511372984796) (-27), lit (-60928845552165204) (-28), lit (-3089599059140399) (-26),
      lit (-8493314427391567) (-26), lit (-4639432556145182) (-29), lit (-9086401239917513) (-29),
      lit (-43380635019322105) (-29), lit (-5163347063050122) (-31), lit (-4907754242711458) (-31),
      lit (-5163491628438305) (-33)).
Proof. vm_compute. reflexivity. Qed.

(** tests/test_eos.py: agreement with published values, to the decimals checked there *)
Definition near (r : res f64) (v tol : f64) : bool :=
  match r with Ok a => ltb (fabs (sub a v)) tol | Err _ => false end.

Example jmd95_check : near (jmd95_rho sdiv (lit 355 (-1)) (lit 3 0) (lit 3000 0)) (lit 104183267 (-5)) (lit 15 (-6)) = true.
Proof. vm_compute. reflexivity. Qed.
Example jmdfwg06_check :
  near (jmdfwg06_rho sdiv (lit 35 0) (lit 25 0) (lit 2000 0)) (lit 103165056056576 (-11)) (lit 15 (-12)) = true /\
  near (jmdfwg06_rho sdiv (lit 20 0) (lit 20 0) (lit 1000 0)) (lit 101772886801964 (-11)) (lit 15 (-12)) = true /\
  near (jmdfwg06_rho sdiv (lit 40 0) (lit 12 0) (lit 8000 0)) (lit 106295279820631 (-11)) (lit 15 (-12)) = true.
Proof. repeat split; vm_compute; reflexivity. Qed.

Open Scope R_scope.

(** sea water of salinity 35 at 10 degrees and 1000 dbar is in every domain *)
Example sea : ocean 35 10 1000.
Proof. repeat split; lra. Qed.
Example sea_jm : jm_dom 35 10 1000.
Proof. exact (jm_ocean_dom _ _ _ sea). Qed.
Example sea_jf : jf_dom 35 10 1000.
Proof. exact (jf_ocean_dom _ _ _ sea). Qed.
