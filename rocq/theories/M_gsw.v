(** * TEOS-10 specific volume and its derivatives

    Translation of neutralocean/eos/gsw.py, statement by statement; operation order and
    decimal literals are those of the source.  [dv] is division: a compiled scalar function
    raises ZeroDivisionError ([sdiv]), the same function applied to arrays follows numpy
    ([div], never raising).  Powers with a literal exponent are repeated
    multiplications ([fpow]).
    The docstrings and the string expression at line 484 are dropped. *)
From Coq Require Import ZArith List.
From Verif Require Import Num Res M_eos_base.
Open Scope num_scope.

Section EOS.
  Context {F : Type} {N : Num F}.

  (** eos/gsw.py:131-215 *)
  Definition tfac : F := lit 25 (-3).
  Definition pfac : F := lit 1 (-4).
  Definition sfac : F := lit 248826675584615 (-16).
  Definition offset : F := lit 5971840214030754 (-16).
  Definition v000 : F := lit 10769995862 (-13).
  Definition v001 : F := lit (-60799143809) (-15).
  Definition v002 : F := lit 99856169219 (-16).
  Definition v003 : F := lit (-11309361437) (-16).
  Definition v004 : F := lit 1053115308 (-16).
  Definition v005 : F := lit (-12647261286) (-18).
  Definition v006 : F := lit 1961350393 (-18).
  Definition v010 : F := lit (-15649734675) (-15).
  Definition v011 : F := lit 18505765429 (-15).
  Definition v012 : F := lit (-11736386731) (-16).
  Definition v013 : F := lit (-36527006553) (-17).
  Definition v014 : F := lit 31454099902 (-17).
  Definition v020 : F := lit 27762106484 (-15).
  Definition v021 : F := lit (-11716606853) (-15).
  Definition v022 : F := lit 2130502874 (-15).
  Definition v023 : F := lit 28695905159 (-17).
  Definition v030 : F := lit (-16521159259) (-15).
  Definition v031 : F := lit 79279656173 (-16).
  Definition v032 : F := lit (-46132540037) (-17).
  Definition v040 : F := lit 69111322702 (-16).
  Definition v041 : F := lit (-34102187482) (-16).
  Definition v042 : F := lit (-63352916514) (-18).
  Definition v050 : F := lit (-8053961554) (-16).
  Definition v051 : F := lit 50736766814 (-17).
  Definition v060 : F := lit 20543094268 (-17).
  Definition v100 : F := lit (-31038981976) (-14).
  Definition v101 : F := lit 24262468747 (-15).
  Definition v102 : F := lit (-58484432984) (-17).
  Definition v103 : F := lit 36310188515 (-17).
  Definition v104 : F := lit (-11147125423) (-17).
  Definition v110 : F := lit 35009599764 (-15).
  Definition v111 : F := lit (-95677088156) (-16).
  Definition v112 : F := lit (-55699154557) (-16).
  Definition v113 : F := lit (-27295696237) (-17).
  Definition v120 : F := lit (-37435842344) (-15).
  Definition v121 : F := lit (-23678308361) (-17).
  Definition v122 : F := lit 3913738708 (-16).
  Definition v130 : F := lit 24141479483 (-15).
  Definition v131 : F := lit (-34558773655) (-16).
  Definition v132 : F := lit 77618888092 (-19).
  Definition v140 : F := lit (-87595873154) (-16).
  Definition v141 : F := lit 12956717783 (-16).
  Definition v150 : F := lit (-330527589) (-15).
  Definition v200 : F := lit 66928067038 (-14).
  Definition v201 : F := lit (-34792460974) (-15).
  Definition v202 : F := lit (-48122251597) (-16).
  Definition v203 : F := lit 1674630378 (-17).
  Definition v210 : F := lit (-43592678561) (-15).
  Definition v211 : F := lit 11100834765 (-15).
  Definition v212 : F := lit 54620748834 (-16).
  Definition v220 : F := lit 3590782276 (-14).
  Definition v221 : F := lit 29283346295 (-16).
  Definition v222 : F := lit (-65731104067) (-17).
  Definition v230 : F := lit (-14353633048) (-15).
  Definition v231 : F := lit 31655306078 (-17).
  Definition v240 : F := lit 43703680598 (-16).
  Definition v300 : F := lit (-85047933937) (-14).
  Definition v301 : F := lit 37470777305 (-15).
  Definition v302 : F := lit 49263106998 (-16).
  Definition v310 : F := lit 34532461828 (-15).
  Definition v311 : F := lit (-98447117844) (-16).
  Definition v312 : F := lit (-13544185627) (-16).
  Definition v320 : F := lit (-18698584187) (-15).
  Definition v321 : F := lit (-488261392) (-15).
  Definition v330 : F := lit 22863324556 (-16).
  Definition v400 : F := lit 58086069943 (-14).
  Definition v401 : F := lit (-17322218612) (-15).
  Definition v402 : F := lit (-17811974727) (-16).
  Definition v410 : F := lit (-11959409788) (-15).
  Definition v411 : F := lit 2590922526 (-15).
  Definition v420 : F := lit 38595339244 (-16).
  Definition v500 : F := lit (-21092370507) (-14).
  Definition v501 : F := lit 30927427253 (-16).
  Definition v510 : F := lit 13864594581 (-16).
  Definition v600 : F := lit 31932457305 (-15).

  Variable dv : F -> F -> res F.

  (** eos/gsw.py:470-476 *)
  Definition gsw__process (SA CT p : F) : res (F * F * F * F) :=
    let SA := npmaximum SA (lit 0 0) in
    let x2 := sfac * SA + offset in
    let x := fsqrt x2 in
    let y := CT * tfac in
    let z := p * pfac in
    Ok (x, y, z, x2).

  (** eos/gsw.py:483-508 *)
  Definition gsw__specvol (x y z : F) : res F :=
    Ok (v000 + x * (v100 + x * (v200 + x * (v300 + x * (v400 + x * (v500 + x * v600))))) + y
      * (v010 + x * (v110 + x * (v210 + x * (v310 + x * (v410 + x * v510)))) + y * (v020 + x *
      (v120 + x * (v220 + x * (v320 + x * v420))) + y * (v030 + x * (v130 + x * (v230 + x * v330))
      + y * (v040 + x * (v140 + x * v240) + y * (v050 + x * v150 + y * v060))))) + z * (v001 + x *
      (v101 + x * (v201 + x * (v301 + x * (v401 + x * v501)))) + y * (v011 + x * (v111 + x * (v211
      + x * (v311 + x * v411))) + y * (v021 + x * (v121 + x * (v221 + x * v321)) + y * (v031 + x *
      (v131 + x * v231) + y * (v041 + x * v141 + y * v051)))) + z * (v002 + x * (v102 + x * (v202
      + x * (v302 + x * v402))) + y * (v012 + x * (v112 + x * (v212 + x * v312)) + y * (v022 + x *
      (v122 + x * v222) + y * (v032 + x * v132 + y * v042))) + z * (v003 + x * (v103 + x * v203) +
      y * (v013 + x * v113 + y * v023) + z * (v004 + x * v104 + y * v014 + z * (v005 + z *
      v006)))))).

  (** eos/gsw.py:512-530 *)
  Definition gsw__s (x y z : F) : res F :=
    let! q1 := dv (v100 + x * (lit 2 0 * v200 + x * (lit 3 0 * v300 + x * (lit 4 0 * v400 +
      x * (lit 5 0 * v500 + x * (lit 6 0 * v600))))) + y * (v110 + x * (lit 2 0 * v210 + x *
      (lit 3 0 * v310 + x * (lit 4 0 * v410 + x * (lit 5 0 * v510)))) + y * (v120 + x * (lit 2 0 *
      v220 + x * (lit 3 0 * v320 + x * (lit 4 0 * v420))) + y * (v130 + x * (lit 2 0 * v230 + x *
      (lit 3 0 * v330)) + y * (v140 + x * (lit 2 0 * v240) + y * v150)))) + z * (v101 + x *
      (lit 2 0 * v201 + x * (lit 3 0 * v301 + x * (lit 4 0 * v401 + x * (lit 5 0 * v501)))) + y *
      (v111 + x * (lit 2 0 * v211 + x * (lit 3 0 * v311 + x * (lit 4 0 * v411))) + y * (v121 + x *
      (lit 2 0 * v221 + x * (lit 3 0 * v321)) + y * (v131 + x * (lit 2 0 * v231) + y * v141))) + z
      * (v102 + x * (lit 2 0 * v202 + x * (lit 3 0 * v302 + x * (lit 4 0 * v402))) + y * (v112 + x
      * (lit 2 0 * v212 + x * (lit 3 0 * v312)) + y * (v122 + x * (lit 2 0 * v222) + y * v132)) +
      z * (v103 + x * (lit 2 0 * v203) + y * v113 + z * v104)))) x in
    Ok (q1 * (lit 5 (-1) * sfac)).

  (** eos/gsw.py:534-552 *)
  Definition gsw__t (x y z : F) : res F :=
    Ok ((v010 + x * (v110 + x * (v210 + x * (v310 + x * (v410 + x * v510)))) + y * (lit 2 0
      * v020 + x * (lit 2 0 * v120 + x * (lit 2 0 * v220 + x * (lit 2 0 * v320 + x * (lit 2 0 *
      v420)))) + y * (lit 3 0 * v030 + x * (lit 3 0 * v130 + x * (lit 3 0 * v230 + x * (lit 3 0 *
      v330))) + y * (lit 4 0 * v040 + x * (lit 4 0 * v140 + x * (lit 4 0 * v240)) + y * (lit 5 0 *
      v050 + x * (lit 5 0 * v150) + y * (lit 6 0 * v060))))) + z * (v011 + x * (v111 + x * (v211 +
      x * (v311 + x * v411))) + y * (lit 2 0 * v021 + x * (lit 2 0 * v121 + x * (lit 2 0 * v221 +
      x * (lit 2 0 * v321))) + y * (lit 3 0 * v031 + x * (lit 3 0 * v131 + x * (lit 3 0 * v231)) +
      y * (lit 4 0 * v041 + x * (lit 4 0 * v141) + y * (lit 5 0 * v051)))) + z * (v012 + x * (v112
      + x * (v212 + x * v312)) + y * (lit 2 0 * v022 + x * (lit 2 0 * v122 + x * (lit 2 0 * v222))
      + y * (lit 3 0 * v032 + x * (lit 3 0 * v132) + y * (lit 4 0 * v042))) + z * (v013 + x * v113
      + y * (lit 2 0 * v023) + z * v014)))) * tfac).

  (** eos/gsw.py:556-574 *)
  Definition gsw__p (x y z : F) : res F :=
    Ok ((v001 + x * (v101 + x * (v201 + x * (v301 + x * (v401 + x * v501)))) + y * (v011 + x
      * (v111 + x * (v211 + x * (v311 + x * v411))) + y * (v021 + x * (v121 + x * (v221 + x *
      v321)) + y * (v031 + x * (v131 + x * v231) + y * (v041 + x * v141 + y * v051)))) + z *
      (lit 2 0 * v002 + x * (lit 2 0 * v102 + x * (lit 2 0 * v202 + x * (lit 2 0 * v302 + x *
      (lit 2 0 * v402)))) + y * (lit 2 0 * v012 + x * (lit 2 0 * v112 + x * (lit 2 0 * v212 + x *
      (lit 2 0 * v312))) + y * (lit 2 0 * v022 + x * (lit 2 0 * v122 + x * (lit 2 0 * v222)) + y *
      (lit 2 0 * v032 + x * (lit 2 0 * v132) + y * (lit 2 0 * v042)))) + z * (lit 3 0 * v003 + x *
      (lit 3 0 * v103 + x * (lit 3 0 * v203)) + y * (lit 3 0 * v013 + x * (lit 3 0 * v113) + y *
      (lit 3 0 * v023)) + z * (lit 4 0 * v004 + x * (lit 4 0 * v104) + y * (lit 4 0 * v014) + z *
      (lit 5 0 * v005 + z * (lit 6 0 * v006)))))) * pfac).

  (** eos/gsw.py:578-596 *)
  Definition gsw__ss (x y z x2 : F) : res F :=
    let! q1 := dv (lit (-25) (-2) * v100 + x2 * (lit 75 (-2) * v300 + x * (lit 2 0 * v400 +
      x * (lit 375 (-2) * v500 + x * (lit 6 0 * v600)))) + y * (lit (-25) (-2) * v110 + x2 *
      (lit 75 (-2) * v310 + x * (lit 2 0 * v410 + x * (lit 375 (-2) * v510))) + y *
      (lit (-25) (-2) * v120 + x2 * (lit 75 (-2) * v320 + x * (lit 2 0 * v420)) + y *
      (lit (-25) (-2) * v130 + x2 * (lit 75 (-2) * v330) + y * (lit (-25) (-2) * v140 + y *
      (lit (-25) (-2) * v150))))) + z * (lit (-25) (-2) * v101 + x2 * (lit 75 (-2) * v301 + x *
      (lit 2 0 * v401 + x * (lit 375 (-2) * v501))) + y * (lit (-25) (-2) * v111 + x2 *
      (lit 75 (-2) * v311 + x * (lit 2 0 * v411)) + y * (lit (-25) (-2) * v121 + x2 * (lit 75 (-2)
      * v321) + y * (lit (-25) (-2) * v131 + y * (lit (-25) (-2) * v141)))) + z * (lit (-25) (-2)
      * v102 + x2 * (lit 75 (-2) * v302 + x * (lit 2 0 * v402)) + y * (lit (-25) (-2) * v112 + x2
      * (lit 75 (-2) * v312) + y * (lit (-25) (-2) * v122 + y * (lit (-25) (-2) * v132))) + z *
      (lit (-25) (-2) * v103 + y * (lit (-25) (-2) * v113) + z * (lit (-25) (-2) * v104))))) (x *
      x2) in
    Ok (q1 * fpow sfac 2).

  (** eos/gsw.py:600-613 *)
  Definition gsw__st (x y z : F) : res F :=
    let! q1 := dv (v110 + x * (lit 2 0 * v210 + x * (lit 3 0 * v310 + x * (lit 4 0 * v410 +
      x * (lit 5 0 * v510)))) + y * (lit 2 0 * v120 + x * (lit 4 0 * v220 + x * (lit 6 0 * v320 +
      x * (lit 8 0 * v420))) + y * (lit 3 0 * v130 + x * (lit 6 0 * v230 + x * (lit 9 0 * v330)) +
      y * (lit 4 0 * v140 + x * (lit 8 0 * v240) + y * (lit 5 0 * v150)))) + z * (v111 + x *
      (lit 2 0 * v211 + x * (lit 3 0 * v311 + x * (lit 4 0 * v411))) + y * (lit 2 0 * v121 + x *
      (lit 4 0 * v221 + x * (lit 6 0 * v321)) + y * (lit 3 0 * v131 + x * (lit 6 0 * v231) + y *
      (lit 4 0 * v141))) + z * (v112 + x * (lit 2 0 * v212 + x * (lit 3 0 * v312)) + y * (lit 2 0
      * v122 + x * (lit 4 0 * v222) + y * (lit 3 0 * v132)) + z * v113))) x in
    Ok (q1 * (lit 5 (-1) * tfac * sfac)).

  (** eos/gsw.py:617-630 *)
  Definition gsw__tt (x y z : F) : res F :=
    Ok ((lit 2 0 * v020 + x * (lit 2 0 * v120 + x * (lit 2 0 * v220 + x * (lit 2 0 * v320 +
      x * (lit 2 0 * v420)))) + y * (lit 6 0 * v030 + x * (lit 6 0 * v130 + x * (lit 6 0 * v230 +
      x * (lit 6 0 * v330))) + y * (lit 12 0 * v040 + x * (lit 12 0 * v140 + x * (lit 12 0 *
      v240)) + y * (lit 20 0 * v050 + x * (lit 20 0 * v150) + y * (lit 30 0 * v060)))) + z *
      (lit 2 0 * v021 + x * (lit 2 0 * v121 + x * (lit 2 0 * v221 + x * (lit 2 0 * v321))) + y *
      (lit 6 0 * v031 + x * (lit 6 0 * v131 + x * (lit 6 0 * v231)) + y * (lit 12 0 * v041 + x *
      (lit 12 0 * v141) + y * (lit 20 0 * v051))) + z * (lit 2 0 * v022 + x * (lit 2 0 * v122 + x
      * (lit 2 0 * v222)) + y * (lit 6 0 * v032 + x * (lit 6 0 * v132) + y * (lit 12 0 * v042)) +
      z * (lit 2 0 * v023)))) * (tfac * tfac)).

  (** eos/gsw.py:634-646 *)
  Definition gsw__sp (x y z : F) : res F :=
    let! q1 := dv (v101 + x * (lit 2 0 * v201 + x * (lit 3 0 * v301 + x * (lit 4 0 * v401 +
      x * (lit 5 0 * v501)))) + y * (v111 + x * (lit 2 0 * v211 + x * (lit 3 0 * v311 + x *
      (lit 4 0 * v411))) + y * (v121 + x * (lit 2 0 * v221 + x * (lit 3 0 * v321)) + y * (v131 + x
      * (lit 2 0 * v231) + y * v141))) + z * (lit 2 0 * v102 + x * (lit 4 0 * v202 + x * (lit 6 0
      * v302 + x * (lit 8 0 * v402))) + y * (lit 2 0 * v112 + x * (lit 4 0 * v212 + x * (lit 6 0 *
      v312)) + y * (lit 2 0 * v122 + x * (lit 4 0 * v222) + y * (lit 2 0 * v132))) + z * (lit 3 0
      * v103 + x * (lit 6 0 * v203) + y * (lit 3 0 * v113) + z * (lit 4 0 * v104)))) x in
    Ok (q1 * (lit 5 (-1) * pfac * sfac)).

  (** eos/gsw.py:650-662 *)
  Definition gsw__tp (x y z : F) : res F :=
    Ok ((v011 + x * (v111 + x * (v211 + x * (v311 + x * v411))) + y * (lit 2 0 * v021 + x *
      (lit 2 0 * v121 + x * (lit 2 0 * v221 + x * (lit 2 0 * v321))) + y * (lit 3 0 * v031 + x *
      (lit 3 0 * v131 + x * (lit 3 0 * v231)) + y * (lit 4 0 * v041 + x * (lit 4 0 * v141) + y *
      (lit 5 0 * v051)))) + z * (lit 2 0 * v012 + x * (lit 2 0 * v112 + x * (lit 2 0 * v212 + x *
      (lit 2 0 * v312))) + y * (lit 4 0 * v022 + x * (lit 4 0 * v122 + x * (lit 4 0 * v222)) + y *
      (lit 6 0 * v032 + x * (lit 6 0 * v132) + y * (lit 8 0 * v042))) + z * (lit 3 0 * v013 + x *
      (lit 3 0 * v113) + y * (lit 6 0 * v023) + z * (lit 4 0 * v014)))) * (tfac * pfac)).

  (** eos/gsw.py:666-679 *)
  Definition gsw__pp (x y z : F) : res F :=
    Ok ((lit 2 0 * v002 + x * (lit 2 0 * v102 + x * (lit 2 0 * v202 + x * (lit 2 0 * v302 +
      x * (lit 2 0 * v402)))) + y * (lit 2 0 * v012 + x * (lit 2 0 * v112 + x * (lit 2 0 * v212 +
      x * (lit 2 0 * v312))) + y * (lit 2 0 * v022 + x * (lit 2 0 * v122 + x * (lit 2 0 * v222)) +
      y * (lit 2 0 * v032 + x * (lit 2 0 * v132) + y * (lit 2 0 * v042)))) + z * (lit 6 0 * v003 +
      x * (lit 6 0 * v103 + x * (lit 6 0 * v203)) + y * (lit 6 0 * v013 + x * (lit 6 0 * v113) + y
      * (lit 6 0 * v023)) + z * (lit 12 0 * v004 + x * (lit 12 0 * v104) + y * (lit 12 0 * v014) +
      z * (lit 20 0 * v005 + z * (lit 30 0 * v006))))) * (pfac * pfac)).

  (** eos/gsw.py:683-702 *)
  Definition gsw__sss (x y z x2 : F) : res F :=
    let! q1 := dv (lit 375 (-3) * v100 + x2 * (lit (-375) (-3) * v300 + x2 * (lit 1875 (-3)
      * v500 + x * (lit 6 0 * v600))) + y * (lit 375 (-3) * v110 + x2 * (lit (-375) (-3) * v310 +
      x2 * (lit 1875 (-3) * v510)) + y * (lit 375 (-3) * v120 + x2 * (lit (-375) (-3) * v320) + y
      * (lit 375 (-3) * v130 + x2 * (lit (-375) (-3) * v330) + y * (lit 375 (-3) * v140 + y *
      (lit 375 (-3) * v150))))) + z * (lit 375 (-3) * v101 + x2 * (lit (-375) (-3) * v301 + x2 *
      (lit 1875 (-3) * v501)) + y * (lit 375 (-3) * v111 + x2 * (lit (-375) (-3) * v311) + y *
      (lit 375 (-3) * v121 + x2 * (lit (-375) (-3) * v321) + y * (lit 375 (-3) * v131 + y *
      (lit 375 (-3) * v141)))) + z * (lit 375 (-3) * v102 + x2 * (lit (-375) (-3) * v302) + y *
      (lit 375 (-3) * v112 + x2 * (lit (-375) (-3) * v312) + y * (lit 375 (-3) * v122 + y *
      (lit 375 (-3) * v132))) + z * (lit 375 (-3) * v103 + y * (lit 375 (-3) * v113) + z *
      (lit 375 (-3) * v104))))) (x * x2 * x2) in
    Ok (q1 * fpow sfac 3).

  (** eos/gsw.py:706-723 *)
  Definition gsw__sst (x y z x2 : F) : res F :=
    let! q1 := dv (lit (-25) (-2) * v110 + x2 * (lit 75 (-2) * v310 + x * (lit 2 0 * v410 +
      x * (lit 375 (-2) * v510))) + y * (lit (-5) (-1) * v120 + x2 * (lit 15 (-1) * v320 + x *
      (lit 4 0 * v420)) + y * (lit (-75) (-2) * v130 + x2 * (lit 225 (-2) * v330) + y *
      (lit (-1) 0 * v140 + y * (lit (-125) (-2) * v150)))) + z * (lit (-25) (-2) * v111 + x2 *
      (lit 75 (-2) * v311 + x * (lit 2 0 * v411)) + y * (lit (-5) (-1) * v121 + x2 * (lit 15 (-1)
      * v321) + y * (lit (-75) (-2) * v131 + y * (lit (-1) 0 * v141))) + z * (lit (-25) (-2) *
      v112 + x2 * (lit 75 (-2) * v312) + y * (lit (-5) (-1) * v122 + y * (lit (-75) (-2) * v132))
      + z * (lit (-25) (-2) * v113)))) (x * x2) in
    Ok (q1 * (fpow sfac 2 * tfac)).

  (** eos/gsw.py:727-736 *)
  Definition gsw__stt (x y z : F) : res F :=
    let! q1 := dv (lit 2 0 * v120 + x * (lit 4 0 * v220 + x * (lit 6 0 * v320 + x * (lit 8 0
      * v420))) + y * (lit 6 0 * v130 + x * (lit 12 0 * v230 + x * (lit 18 0 * v330)) + y *
      (lit 12 0 * v140 + x * (lit 24 0 * v240) + y * (lit 20 0 * v150))) + z * (lit 2 0 * v121 + x
      * (lit 4 0 * v221 + x * (lit 6 0 * v321)) + y * (lit 6 0 * v131 + x * (lit 12 0 * v231) + y
      * (lit 12 0 * v141)) + z * (lit 2 0 * v122 + x * (lit 4 0 * v222) + y * (lit 6 0 * v132))))
      x in
    let! q2 := dv (tfac * tfac * sfac) (lit 2 0) in
    Ok (q1 * q2).

  (** eos/gsw.py:740-749 *)
  Definition gsw__ttt (x y z : F) : res F :=
    Ok ((lit 6 0 * v030 + x * (lit 6 0 * v130 + x * (lit 6 0 * v230 + x * (lit 6 0 * v330)))
      + y * (lit 24 0 * v040 + x * (lit 24 0 * v140 + x * (lit 24 0 * v240)) + y * (lit 60 0 *
      v050 + x * (lit 60 0 * v150) + y * (lit 120 0 * v060))) + z * (lit 6 0 * v031 + x * (lit 6 0
      * v131 + x * (lit 6 0 * v231)) + y * (lit 24 0 * v041 + x * (lit 24 0 * v141) + y *
      (lit 60 0 * v051)) + z * (lit 6 0 * v032 + x * (lit 6 0 * v132) + y * (lit 24 0 * v042)))) *
      fpow tfac 3).

  (** eos/gsw.py:753-766 *)
  Definition gsw__ssp (x y z x2 : F) : res F :=
    let! q1 := dv (lit (-25) (-2) * v101 + x2 * (lit 75 (-2) * v301 + x * (lit 2 0 * v401 +
      x * (lit 375 (-2) * v501))) + y * (lit (-25) (-2) * v111 + x2 * (lit 75 (-2) * v311 + x *
      (lit 2 0 * v411)) + y * (lit (-25) (-2) * v121 + x2 * (lit 75 (-2) * v321) + y *
      (lit (-25) (-2) * v131 + y * (lit (-25) (-2) * v141)))) + z * (lit (-5) (-1) * v102 + x2 *
      (lit 15 (-1) * v302 + x * (lit 4 0 * v402)) + y * (lit (-5) (-1) * v112 + x2 * (lit 15 (-1)
      * v312) + y * (lit (-5) (-1) * v122 + y * (lit (-5) (-1) * v132))) + z * (lit (-75) (-2) *
      v103 + y * (lit (-75) (-2) * v113) + z * (lit (-1) 0 * v104)))) (x * x2) in
    Ok (q1 * (fpow sfac 2 * pfac)).

  (** eos/gsw.py:770-778 *)
  Definition gsw__stp (x y z : F) : res F :=
    let! q1 := dv (v111 + x * (lit 2 0 * v211 + x * (lit 3 0 * v311 + x * (lit 4 0 * v411)))
      + y * (lit 2 0 * v121 + x * (lit 4 0 * v221 + x * (lit 6 0 * v321)) + y * (lit 3 0 * v131 +
      x * (lit 6 0 * v231) + y * (lit 4 0 * v141))) + z * (lit 2 0 * v112 + x * (lit 4 0 * v212 +
      x * (lit 6 0 * v312)) + y * (lit 4 0 * v122 + x * (lit 8 0 * v222) + y * (lit 6 0 * v132)) +
      z * (lit 3 0 * v113))) x in
    Ok (q1 * (lit 5 (-1) * sfac * tfac * pfac)).

  (** eos/gsw.py:782-790 *)
  Definition gsw__ttp (x y z : F) : res F :=
    Ok ((lit 2 0 * v021 + x * (lit 2 0 * v121 + x * (lit 2 0 * v221 + x * (lit 2 0 * v321)))
      + y * (lit 6 0 * v031 + x * (lit 6 0 * v131 + x * (lit 6 0 * v231)) + y * (lit 12 0 * v041 +
      x * (lit 12 0 * v141) + y * (lit 20 0 * v051))) + z * (lit 4 0 * v022 + x * (lit 4 0 * v122
      + x * (lit 4 0 * v222)) + y * (lit 12 0 * v032 + x * (lit 12 0 * v132) + y * (lit 24 0 *
      v042)) + z * (lit 6 0 * v023))) * (tfac * tfac * pfac)).

  (** eos/gsw.py:794-801 *)
  Definition gsw__spp (x y z : F) : res F :=
    let! q1 := dv (lit 2 0 * v102 + x * (lit 4 0 * v202 + x * (lit 6 0 * v302 + x * (lit 8 0
      * v402))) + y * (lit 2 0 * v112 + x * (lit 4 0 * v212 + x * (lit 6 0 * v312)) + y * (lit 2 0
      * v122 + x * (lit 4 0 * v222) + y * (lit 2 0 * v132))) + z * (lit 6 0 * v103 + x * (lit 12 0
      * v203) + y * (lit 6 0 * v113) + z * (lit 12 0 * v104))) x in
    let! q2 := dv (pfac * pfac * sfac) (lit 2 0) in
    Ok (q1 * q2).

  (** eos/gsw.py:805-812 *)
  Definition gsw__tpp (x y z : F) : res F :=
    Ok ((lit 2 0 * v012 + x * (lit 2 0 * v112 + x * (lit 2 0 * v212 + x * (lit 2 0 * v312)))
      + y * (lit 4 0 * v022 + x * (lit 4 0 * v122 + x * (lit 4 0 * v222)) + y * (lit 6 0 * v032 +
      x * (lit 6 0 * v132) + y * (lit 8 0 * v042))) + z * (lit 6 0 * v013 + x * (lit 6 0 * v113) +
      y * (lit 12 0 * v023) + z * (lit 12 0 * v014))) * (tfac * pfac * pfac)).

  (** eos/gsw.py:816-823 *)
  Definition gsw__ppp (x y z : F) : res F :=
    Ok ((lit 6 0 * v003 + x * (lit 6 0 * v103 + x * (lit 6 0 * v203)) + y * (lit 6 0 * v013
      + x * (lit 6 0 * v113) + y * (lit 6 0 * v023)) + z * (lit 24 0 * v004 + x * (lit 24 0 *
      v104) + y * (lit 24 0 * v014) + z * (lit 60 0 * v005 + z * (lit 120 0 * v006)))) * fpow pfac
      3).

  (** eos/gsw.py:224-243 *)
  Definition gsw_specvol (SA CT p : F) : res F :=
    let! w := gsw__process SA CT p in
    let '(x, y, z, _) := w in
    gsw__specvol x y z.

  (** eos/gsw.py:247-271 *)
  Definition gsw_specvol_first_derivs (SA CT p : F) : res (F * F * F) :=
    let! w := gsw__process SA CT p in
    let '(x, y, z, _) := w in
    let! s := gsw__s x y z in
    let! t := gsw__t x y z in
    let! p := gsw__p x y z in
    Ok (s, t, p).

  (** eos/gsw.py:275-303 *)
  Definition gsw_specvol_second_derivs (SA CT p : F) : res (F * F * F * F * F * F) :=
    let! w := gsw__process SA CT p in
    let '(x, y, z, x2) := w in
    let! ss := gsw__ss x y z x2 in
    let! st := gsw__st x y z in
    let! tt_ := gsw__tt x y z in
    let! sp := gsw__sp x y z in
    let! tp := gsw__tp x y z in
    let! pp := gsw__pp x y z in
    Ok (ss, st, tt_, sp, tp, pp).

  (** eos/gsw.py:307-339 *)
  Definition gsw_specvol_third_derivs (SA CT p : F) : res (F * F * F * F * F * F * F * F * F *
    F) :=
    let! w := gsw__process SA CT p in
    let '(x, y, z, x2) := w in
    let! sss := gsw__sss x y z x2 in
    let! sst := gsw__sst x y z x2 in
    let! stt := gsw__stt x y z in
    let! ttt := gsw__ttt x y z in
    let! ssp := gsw__ssp x y z x2 in
    let! stp := gsw__stp x y z in
    let! ttp := gsw__ttp x y z in
    let! spp := gsw__spp x y z in
    let! tpp := gsw__tpp x y z in
    let! ppp := gsw__ppp x y z in
    Ok (sss, sst, stt, ttt, ssp, stp, ttp, spp, tpp, ppp).

  (** eos/gsw.py:343-368 *)
  Definition gsw_specvol_s_t (SA CT p : F) : res (F * F) :=
    let! w := gsw__process SA CT p in
    let '(x, y, z, _) := w in
    let! s := gsw__s x y z in
    let! t := gsw__t x y z in
    Ok (s, t).

  (** eos/gsw.py:372-391 *)
  Definition gsw_specvol_p (SA CT p : F) : res F :=
    let! w := gsw__process SA CT p in
    let '(x, y, z, _) := w in
    gsw__p x y z.

  (** eos/gsw.py:395-423 *)
  Definition gsw_specvol_s_t_ss_st_tt_sp_tp (SA CT p : F) : res (F * F * F * F * F * F * F) :=
    let! w := gsw__process SA CT p in
    let '(x, y, z, x2) := w in
    let! s := gsw__s x y z in
    let! t := gsw__t x y z in
    let! ss := gsw__ss x y z x2 in
    let! st := gsw__st x y z in
    let! tt_ := gsw__tt x y z in
    let! sp := gsw__sp x y z in
    let! tp := gsw__tp x y z in
    Ok (s, t, ss, st, tt_, sp, tp).

  (** eos/gsw.py:427-465 *)
  Definition gsw_specvol_s_t_ss_st_tt_sp_tp_sss_sst_stt_ttt_ssp_stp_ttp_spp_tpp (SA CT p : F)
    : res (F * F * F * F * F * F * F * F * F * F * F * F * F * F * F * F) :=
    let! w := gsw__process SA CT p in
    let '(x, y, z, x2) := w in
    let! s := gsw__s x y z in
    let! t := gsw__t x y z in
    let! ss := gsw__ss x y z x2 in
    let! st := gsw__st x y z in
    let! tt_ := gsw__tt x y z in
    let! sp := gsw__sp x y z in
    let! tp := gsw__tp x y z in
    let! sss := gsw__sss x y z x2 in
    let! sst := gsw__sst x y z x2 in
    let! stt := gsw__stt x y z in
    let! ttt := gsw__ttt x y z in
    let! ssp := gsw__ssp x y z x2 in
    let! stp := gsw__stp x y z in
    let! ttp := gsw__ttp x y z in
    let! spp := gsw__spp x y z in
    let! tpp := gsw__tpp x y z in
    Ok (s, t, ss, st, tt_, sp, tp, sss, sst, stt, ttt, ssp, stp, ttp, spp, tpp).
End EOS.
