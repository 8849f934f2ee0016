(** * Equations of state: what they should compute

    Each equation of state is given by tables of coefficients [c, (i, j, k)], one for each
    term c x^i y^j z^k, and "derivative" means the limit of the difference quotient
    ([derivable_pt_lim] of the standard library).  Nothing here refers to the models. *)
From Coq Require Import ZArith Reals List.
Import ListNotations.
Open Scope R_scope.

(** the decimal number m 10^e *)
Definition dec (m e : Z) : R := IZR m * powerRZ 10 e.

(** a term, and the polynomial with a list of terms *)
Definition mono : Type := (R * (nat * nat * nat))%type.
Definition poly (l : list mono) (x y z : R) : R :=
  fold_right (fun '(c, (i, j, k)) a => c * x ^ i * y ^ j * z ^ k + a) 0 l.

(** l is the partial derivative of f at (s, t, p) in its first, second, third argument *)
Definition diff_s (f : R -> R -> R -> R) (s t p l : R) : Prop :=
  derivable_pt_lim (fun s' => f s' t p) s l.
Definition diff_t (f : R -> R -> R -> R) (s t p l : R) : Prop :=
  derivable_pt_lim (fun t' => f s t' p) t l.
Definition diff_p (f : R -> R -> R -> R) (s t p l : R) : Prop :=
  derivable_pt_lim (fun p' => f s t p') p l.

(** ** Jackett and McDougall (1995), pressure in dbar.  Terms in (sqrt s, t, p). *)
(** secant bulk modulus *)
Definition jm_K_terms : list mono :=
  [ (dec 1965933 (-1), (0, 0, 0)%nat); (dec 1444304 (-3), (0, 1, 0)%nat);
    (dec (-1706103) (-5), (0, 2, 0)%nat); (dec 9648704 (-8), (0, 3, 0)%nat);
    (dec (-4190253) (-10), (0, 4, 0)%nat); (dec 5284855 (-4), (2, 0, 0)%nat);
    (dec (-3101089) (-6), (2, 1, 0)%nat); (dec 6283263 (-8), (2, 2, 0)%nat);
    (dec (-5084188) (-10), (2, 3, 0)%nat); (dec 388664 (-5), (3, 0, 0)%nat);
    (dec 9085835 (-8), (3, 1, 0)%nat); (dec (-4619924) (-9), (3, 2, 0)%nat);
    (dec 3186519 (-6), (0, 0, 1)%nat); (dec 2212276 (-8), (0, 1, 1)%nat);
    (dec (-2984642) (-10), (0, 2, 1)%nat); (dec 1956415 (-12), (0, 3, 1)%nat);
    (dec 6704388 (-9), (2, 0, 1)%nat); (dec (-1847318) (-10), (2, 1, 1)%nat);
    (dec 2059331 (-13), (2, 2, 1)%nat); (dec 1480266 (-10), (3, 0, 1)%nat);
    (dec 2102898 (-11), (0, 0, 2)%nat); (dec (-1202016) (-12), (0, 1, 2)%nat);
    (dec 139468 (-13), (0, 2, 2)%nat); (dec (-2040237) (-13), (2, 0, 2)%nat);
    (dec 6128773 (-15), (2, 1, 2)%nat); (dec 6207323 (-17), (2, 2, 2)%nat) ].

(** density at atmospheric pressure *)
Definition jm_rho0_terms : list mono :=
  [ (dec 999842594 (-6), (0, 0, 0)%nat); (dec 6793952 (-8), (0, 1, 0)%nat);
    (dec (-909529) (-8), (0, 2, 0)%nat); (dec 1001685 (-10), (0, 3, 0)%nat);
    (dec (-1120083) (-12), (0, 4, 0)%nat); (dec 6536332 (-15), (0, 5, 0)%nat);
    (dec 824493 (-6), (2, 0, 0)%nat); (dec (-40899) (-7), (2, 1, 0)%nat);
    (dec 76438 (-9), (2, 2, 0)%nat); (dec (-82467) (-11), (2, 3, 0)%nat);
    (dec 53875 (-13), (2, 4, 0)%nat); (dec (-572466) (-8), (3, 0, 0)%nat);
    (dec 10227 (-8), (3, 1, 0)%nat); (dec (-16546) (-10), (3, 2, 0)%nat);
    (dec 48314 (-8), (4, 0, 0)%nat) ].

Definition jm_K (s t p : R) : R := poly jm_K_terms (sqrt s) t p.
Definition jm_rho0 (s t : R) : R := poly jm_rho0_terms (sqrt s) t 0.
Definition jm_rho (s t p : R) : R := jm_rho0 s t / (1 - p / jm_K s t p).

(** where the formula makes sense *)
Definition jm_dom (s t p : R) : Prop := 0 <= s /\ jm_K s t p <> 0 /\ jm_K s t p <> p.

(** ** Jackett et al. (2006).  Terms in (sqrt s, t, p).  The last term of the denominator is
    the guard 1e-40 that the code adds. *)
(** numerator *)
Definition jf_num_terms : list mono :=
  [ (dec 99984085444849347 (-14), (0, 0, 0)%nat); (dec 73471625860981584 (-16), (0, 1, 0)%nat);
    (dec (-53211231792841769) (-18), (0, 2, 0)%nat); (dec 36492439109814549 (-20), (0, 3, 0)%nat);
    (dec 2588057102399139 (-15), (2, 0, 0)%nat); (dec (-67168282786692355) (-19), (2, 1, 0)%nat);
    (dec 19203202055760151 (-19), (4, 0, 0)%nat); (dec 11798263740430364 (-18), (0, 0, 1)%nat);
    (dec 98920219266399117 (-24), (0, 2, 1)%nat); (dec 4699664277175473 (-21), (2, 0, 1)%nat);
    (dec (-25862187075154352) (-24), (0, 0, 2)%nat); (dec (-32921414007960662) (-28), (0, 2, 2)%nat) ].

(** denominator *)
Definition jf_den_terms : list mono :=
  [ (dec 1 0, (0, 0, 0)%nat); (dec 72815210113327091 (-19), (0, 1, 0)%nat);
    (dec (-44787265461983921) (-21), (0, 2, 0)%nat); (dec 3385100296580243 (-22), (0, 3, 0)%nat);
    (dec 13651202389758572 (-26), (0, 4, 0)%nat); (dec 17632126669040377 (-19), (2, 0, 0)%nat);
    (dec (-88066583251206474) (-22), (2, 1, 0)%nat); (dec (-18832689434804897) (-26), (2, 3, 0)%nat);
    (dec 57463776745432097 (-22), (3, 0, 0)%nat); (dec 14716275472242334 (-25), (3, 2, 0)%nat);
    (dec 67103246285651894 (-22), (0, 0, 1)%nat); (dec (-24461698007024582) (-33), (0, 3, 2)%nat);
    (dec (-91534417604289062) (-34), (0, 1, 3)%nat); (dec 1 (-40), (0, 0, 0)%nat) ].

Definition jf_num (s t p : R) : R := poly jf_num_terms (sqrt s) t p.
Definition jf_den (s t p : R) : R := poly jf_den_terms (sqrt s) t p.
Definition jf_rho (s t p : R) : R := jf_num s t p / jf_den s t p.
Definition jf_dom (s t p : R) : Prop := 0 <= s /\ jf_den s t p <> 0.

(** ** TEOS-10 specific volume (Roquet et al. 2015): 75 terms in
    (sqrt (sfac SA + offset), tfac CT, pfac p) *)
(** coefficients v_ijk *)
Definition teos_terms : list mono :=
  [ (dec 10769995862 (-13), (0, 0, 0)%nat); (dec (-60799143809) (-15), (0, 0, 1)%nat);
    (dec 99856169219 (-16), (0, 0, 2)%nat); (dec (-11309361437) (-16), (0, 0, 3)%nat);
    (dec 1053115308 (-16), (0, 0, 4)%nat); (dec (-12647261286) (-18), (0, 0, 5)%nat);
    (dec 1961350393 (-18), (0, 0, 6)%nat); (dec (-15649734675) (-15), (0, 1, 0)%nat);
    (dec 18505765429 (-15), (0, 1, 1)%nat); (dec (-11736386731) (-16), (0, 1, 2)%nat);
    (dec (-36527006553) (-17), (0, 1, 3)%nat); (dec 31454099902 (-17), (0, 1, 4)%nat);
    (dec 27762106484 (-15), (0, 2, 0)%nat); (dec (-11716606853) (-15), (0, 2, 1)%nat);
    (dec 2130502874 (-15), (0, 2, 2)%nat); (dec 28695905159 (-17), (0, 2, 3)%nat);
    (dec (-16521159259) (-15), (0, 3, 0)%nat); (dec 79279656173 (-16), (0, 3, 1)%nat);
    (dec (-46132540037) (-17), (0, 3, 2)%nat); (dec 69111322702 (-16), (0, 4, 0)%nat);
    (dec (-34102187482) (-16), (0, 4, 1)%nat); (dec (-63352916514) (-18), (0, 4, 2)%nat);
    (dec (-8053961554) (-16), (0, 5, 0)%nat); (dec 50736766814 (-17), (0, 5, 1)%nat);
    (dec 20543094268 (-17), (0, 6, 0)%nat); (dec (-31038981976) (-14), (1, 0, 0)%nat);
    (dec 24262468747 (-15), (1, 0, 1)%nat); (dec (-58484432984) (-17), (1, 0, 2)%nat);
    (dec 36310188515 (-17), (1, 0, 3)%nat); (dec (-11147125423) (-17), (1, 0, 4)%nat);
    (dec 35009599764 (-15), (1, 1, 0)%nat); (dec (-95677088156) (-16), (1, 1, 1)%nat);
    (dec (-55699154557) (-16), (1, 1, 2)%nat); (dec (-27295696237) (-17), (1, 1, 3)%nat);
    (dec (-37435842344) (-15), (1, 2, 0)%nat); (dec (-23678308361) (-17), (1, 2, 1)%nat);
    (dec 3913738708 (-16), (1, 2, 2)%nat); (dec 24141479483 (-15), (1, 3, 0)%nat);
    (dec (-34558773655) (-16), (1, 3, 1)%nat); (dec 77618888092 (-19), (1, 3, 2)%nat);
    (dec (-87595873154) (-16), (1, 4, 0)%nat); (dec 12956717783 (-16), (1, 4, 1)%nat);
    (dec (-330527589) (-15), (1, 5, 0)%nat); (dec 66928067038 (-14), (2, 0, 0)%nat);
    (dec (-34792460974) (-15), (2, 0, 1)%nat); (dec (-48122251597) (-16), (2, 0, 2)%nat);
    (dec 1674630378 (-17), (2, 0, 3)%nat); (dec (-43592678561) (-15), (2, 1, 0)%nat);
    (dec 11100834765 (-15), (2, 1, 1)%nat); (dec 54620748834 (-16), (2, 1, 2)%nat);
    (dec 3590782276 (-14), (2, 2, 0)%nat); (dec 29283346295 (-16), (2, 2, 1)%nat);
    (dec (-65731104067) (-17), (2, 2, 2)%nat); (dec (-14353633048) (-15), (2, 3, 0)%nat);
    (dec 31655306078 (-17), (2, 3, 1)%nat); (dec 43703680598 (-16), (2, 4, 0)%nat);
    (dec (-85047933937) (-14), (3, 0, 0)%nat); (dec 37470777305 (-15), (3, 0, 1)%nat);
    (dec 49263106998 (-16), (3, 0, 2)%nat); (dec 34532461828 (-15), (3, 1, 0)%nat);
    (dec (-98447117844) (-16), (3, 1, 1)%nat); (dec (-13544185627) (-16), (3, 1, 2)%nat);
    (dec (-18698584187) (-15), (3, 2, 0)%nat); (dec (-488261392) (-15), (3, 2, 1)%nat);
    (dec 22863324556 (-16), (3, 3, 0)%nat); (dec 58086069943 (-14), (4, 0, 0)%nat);
    (dec (-17322218612) (-15), (4, 0, 1)%nat); (dec (-17811974727) (-16), (4, 0, 2)%nat);
    (dec (-11959409788) (-15), (4, 1, 0)%nat); (dec 2590922526 (-15), (4, 1, 1)%nat);
    (dec 38595339244 (-16), (4, 2, 0)%nat); (dec (-21092370507) (-14), (5, 0, 0)%nat);
    (dec 30927427253 (-16), (5, 0, 1)%nat); (dec 13864594581 (-16), (5, 1, 0)%nat);
    (dec 31932457305 (-15), (6, 0, 0)%nat) ].

Definition teos_x (s : R) : R := sqrt (dec 248826675584615 (-16) * s + dec 5971840214030754 (-16)).
Definition teos_v (s t p : R) : R :=
  poly teos_terms (teos_x (Rmax s 0)) (t * dec 25 (-3)) (p * dec 1 (-4)).

(** ** Oceanographic range: salinity up to 42, temperature from -3 to 40, pressure up to
    10000 dbar *)
Definition ocean (s t p : R) : Prop :=
  0 <= s <= 42 /\ -3 <= t <= 40 /\ 0 <= p <= 10000.
