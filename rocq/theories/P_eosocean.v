(** * Signs over the oceanographic range *)
From Coq Require Import ZArith Reals Lra Lia List Bool.
From Verif Require Import Num Res M_eos_base M_jmd95 M_jmdfwg06 M_gsw S_eos P_eos P_eosbound
  P_jmd95 P_jmdfwg06 P_gsw P_gsw2 P_gsw3.
Import ListNotations.
Open Scope R_scope.

(** ** Horner forms of the tables and of their derivatives *)
Definition teos_h : list (list (list (Z * Z))) :=
  [ [ [(10769995862, (-13)); ((-31038981976), (-14)); (66928067038, (-14)); ((-85047933937), (-14)); (58086069943, (-14)); ((-21092370507), (-14)); (31932457305, (-15))];
      [((-15649734675), (-15)); (35009599764, (-15)); ((-43592678561), (-15)); (34532461828, (-15)); ((-11959409788), (-15)); (13864594581, (-16))];
      [(27762106484, (-15)); ((-37435842344), (-15)); (3590782276, (-14)); ((-18698584187), (-15)); (38595339244, (-16))];
      [((-16521159259), (-15)); (24141479483, (-15)); ((-14353633048), (-15)); (22863324556, (-16))];
      [(69111322702, (-16)); ((-87595873154), (-16)); (43703680598, (-16))];
      [((-8053961554), (-16)); ((-330527589), (-15))];
      [(20543094268, (-17))] ];
    [ [((-60799143809), (-15)); (24262468747, (-15)); ((-34792460974), (-15)); (37470777305, (-15)); ((-17322218612), (-15)); (30927427253, (-16))];
      [(18505765429, (-15)); ((-95677088156), (-16)); (11100834765, (-15)); ((-98447117844), (-16)); (2590922526, (-15))];
      [((-11716606853), (-15)); ((-23678308361), (-17)); (29283346295, (-16)); ((-488261392), (-15))];
      [(79279656173, (-16)); ((-34558773655), (-16)); (31655306078, (-17))];
      [((-34102187482), (-16)); (12956717783, (-16))];
      [(50736766814, (-17))] ];
    [ [(99856169219, (-16)); ((-58484432984), (-17)); ((-48122251597), (-16)); (49263106998, (-16)); ((-17811974727), (-16))];
      [((-11736386731), (-16)); ((-55699154557), (-16)); (54620748834, (-16)); ((-13544185627), (-16))];
      [(2130502874, (-15)); (3913738708, (-16)); ((-65731104067), (-17))];
      [((-46132540037), (-17)); (77618888092, (-19))];
      [((-63352916514), (-18))] ];
    [ [((-11309361437), (-16)); (36310188515, (-17)); (1674630378, (-17))];
      [((-36527006553), (-17)); ((-27295696237), (-17))];
      [(28695905159, (-17))] ];
    [ [(1053115308, (-16)); ((-11147125423), (-17))];
      [(31454099902, (-17))] ];
    [ [((-12647261286), (-18))] ];
    [ [(1961350393, (-18))] ] ]%Z.

Definition teos_p_h : list (list (list (Z * Z))) :=
  [ [ [((-60799143809), (-15)); (24262468747, (-15)); ((-34792460974), (-15)); (37470777305, (-15)); ((-17322218612), (-15)); (30927427253, (-16))];
      [(18505765429, (-15)); ((-95677088156), (-16)); (11100834765, (-15)); ((-98447117844), (-16)); (2590922526, (-15))];
      [((-11716606853), (-15)); ((-23678308361), (-17)); (29283346295, (-16)); ((-488261392), (-15))];
      [(79279656173, (-16)); ((-34558773655), (-16)); (31655306078, (-17))];
      [((-34102187482), (-16)); (12956717783, (-16))];
      [(50736766814, (-17))] ];
    [ [(199712338438, (-16)); ((-116968865968), (-17)); ((-96244503194), (-16)); (98526213996, (-16)); ((-35623949454), (-16))];
      [((-23472773462), (-16)); ((-111398309114), (-16)); (109241497668, (-16)); ((-27088371254), (-16))];
      [(4261005748, (-15)); (7827477416, (-16)); ((-131462208134), (-17))];
      [((-92265080074), (-17)); (155237776184, (-19))];
      [((-126705833028), (-18))] ];
    [ [((-33928084311), (-16)); (108930565545, (-17)); (5023891134, (-17))];
      [((-109581019659), (-17)); ((-81887088711), (-17))];
      [(86087715477, (-17))] ];
    [ [(4212461232, (-16)); ((-44588501692), (-17))];
      [(125816399608, (-17))] ];
    [ [((-63236306430), (-18))] ];
    [ [(11768102358, (-18))] ] ]%Z.

Definition teos_s_h : list (list (list (Z * Z))) :=
  [ [ [((-31038981976), (-14)); (133856134076, (-14)); ((-255143801811), (-14)); (232344279772, (-14)); ((-105461852535), (-14)); (191594743830, (-15))];
      [(35009599764, (-15)); ((-87185357122), (-15)); (103597385484, (-15)); ((-47837639152), (-15)); (69322972905, (-16))];
      [((-37435842344), (-15)); (7181564552, (-14)); ((-56095752561), (-15)); (154381356976, (-16))];
      [(24141479483, (-15)); ((-28707266096), (-15)); (68589973668, (-16))];
      [((-87595873154), (-16)); (87407361196, (-16))];
      [((-330527589), (-15))] ];
    [ [(24262468747, (-15)); ((-69584921948), (-15)); (112412331915, (-15)); ((-69288874448), (-15)); (154637136265, (-16))];
      [((-95677088156), (-16)); (22201669530, (-15)); ((-295341353532), (-16)); (10363690104, (-15))];
      [((-23678308361), (-17)); (58566692590, (-16)); ((-1464784176), (-15))];
      [((-34558773655), (-16)); (63310612156, (-17))];
      [(12956717783, (-16))] ];
    [ [((-58484432984), (-17)); ((-96244503194), (-16)); (147789320994, (-16)); ((-71247898908), (-16))];
      [((-55699154557), (-16)); (109241497668, (-16)); ((-40632556881), (-16))];
      [(3913738708, (-16)); ((-131462208134), (-17))];
      [(77618888092, (-19))] ];
    [ [(36310188515, (-17)); (3349260756, (-17))];
      [((-27295696237), (-17))] ];
    [ [((-11147125423), (-17))] ] ]%Z.

Definition jm_K_h : list (list (list (Z * Z))) :=
  [ [ [(1965933, (-1)); (0, 0); (5284855, (-4)); (388664, (-5))];
      [(1444304, (-3)); (0, 0); ((-3101089), (-6)); (9085835, (-8))];
      [((-1706103), (-5)); (0, 0); (6283263, (-8)); ((-4619924), (-9))];
      [(9648704, (-8)); (0, 0); ((-5084188), (-10))];
      [((-4190253), (-10))] ];
    [ [(3186519, (-6)); (0, 0); (6704388, (-9)); (1480266, (-10))];
      [(2212276, (-8)); (0, 0); ((-1847318), (-10))];
      [((-2984642), (-10)); (0, 0); (2059331, (-13))];
      [(1956415, (-12))] ];
    [ [(2102898, (-11)); (0, 0); ((-2040237), (-13))];
      [((-1202016), (-12)); (0, 0); (6128773, (-15))];
      [(139468, (-13)); (0, 0); (6207323, (-17))] ] ]%Z.

Definition jm_rho0_h : list (list (list (Z * Z))) :=
  [ [ [(999842594, (-6)); (0, 0); (824493, (-6)); ((-572466), (-8)); (48314, (-8))];
      [(6793952, (-8)); (0, 0); ((-40899), (-7)); (10227, (-8))];
      [((-909529), (-8)); (0, 0); (76438, (-9)); ((-16546), (-10))];
      [(1001685, (-10)); (0, 0); ((-82467), (-11))];
      [((-1120083), (-12)); (0, 0); (53875, (-13))];
      [(6536332, (-15))] ] ]%Z.

Definition jm_KKp_h : list (list (list (Z * Z))) :=
  [ [ [(1965933, (-1)); (0, 0); (5284855, (-4)); (388664, (-5))];
      [(1444304, (-3)); (0, 0); ((-3101089), (-6)); (9085835, (-8))];
      [((-1706103), (-5)); (0, 0); (6283263, (-8)); ((-4619924), (-9))];
      [(9648704, (-8)); (0, 0); ((-5084188), (-10))];
      [((-4190253), (-10))] ];
    [  ];
    [ [((-2102898), (-11)); (0, 0); (2040237, (-13))];
      [(1202016, (-12)); (0, 0); ((-6128773), (-15))];
      [((-139468), (-13)); (0, 0); ((-6207323), (-17))] ] ]%Z.

Definition jm_Ks_h : list (list (list (Z * Z))) :=
  [ [ [(10569710, (-4)); (1165992, (-5))];
      [((-6202178), (-6)); (27257505, (-8))];
      [(12566526, (-8)); ((-13859772), (-9))];
      [((-10168376), (-10))] ];
    [ [(13408776, (-9)); (4440798, (-10))];
      [((-3694636), (-10))];
      [(4118662, (-13))] ];
    [ [((-4080474), (-13))];
      [(12257546, (-15))];
      [(12414646, (-17))] ] ]%Z.

Definition jm_rho0s_h : list (list (list (Z * Z))) :=
  [ [ [(1648986, (-6)); ((-1717398), (-8)); (193256, (-8))];
      [((-81798), (-7)); (30681, (-8))];
      [(152876, (-9)); ((-49638), (-10))];
      [((-164934), (-11))];
      [(107750, (-13))] ] ]%Z.

Definition jf_num_h : list (list (list (Z * Z))) :=
  [ [ [(99984085444849347, (-14)); (0, 0); (2588057102399139, (-15)); (0, 0); (19203202055760151, (-19))];
      [(73471625860981584, (-16)); (0, 0); ((-67168282786692355), (-19))];
      [((-53211231792841769), (-18))];
      [(36492439109814549, (-20))] ];
    [ [(11798263740430364, (-18)); (0, 0); (4699664277175473, (-21))];
      [];
      [(98920219266399117, (-24))] ];
    [ [((-25862187075154352), (-24))];
      [];
      [((-32921414007960662), (-28))] ] ]%Z.

Definition jf_den_h : list (list (list (Z * Z))) :=
  [ [ [(1, 0); (0, 0); (17632126669040377, (-19)); (57463776745432097, (-22))];
      [(72815210113327091, (-19)); (0, 0); ((-88066583251206474), (-22))];
      [((-44787265461983921), (-21)); (0, 0); (0, 0); (14716275472242334, (-25))];
      [(3385100296580243, (-22)); (0, 0); ((-18832689434804897), (-26))];
      [(13651202389758572, (-26))] ];
    [ [(67103246285651894, (-22))] ];
    [ [];
      [];
      [];
      [((-24461698007024582), (-33))] ];
    [ [];
      [((-91534417604289062), (-34))] ] ]%Z.

Definition jf_nump_h : list (list (list (Z * Z))) :=
  [ [ [(11798263740430364, (-18)); (0, 0); (4699664277175473, (-21))];
      [];
      [(98920219266399117, (-24))] ];
    [ [((-51724374150308704), (-24))];
      [];
      [((-65842828015921324), (-28))] ] ]%Z.

Definition jf_denp_h : list (list (list (Z * Z))) :=
  [ [ [(67103246285651894, (-22))] ];
    [ [];
      [];
      [];
      [((-48923396014049164), (-33))] ];
    [ [];
      [((-274603252812867186), (-34))] ] ]%Z.

Definition jf_nums_h : list (list (list (Z * Z))) :=
  [ [ [(5176114204798278, (-15)); (0, 0); (76812808223040604, (-19))];
      [((-134336565573384710), (-19))] ];
    [ [(9399328554350946, (-21))] ] ]%Z.

Definition jf_dens_h : list (list (list (Z * Z))) :=
  [ [ [(35264253338080754, (-19)); (172391330236296291, (-22))];
      [((-176133166502412948), (-22))];
      [(0, 0); (44148826416727002, (-25))];
      [((-37665378869609794), (-26))] ] ]%Z.

(** endpoints in thousandths *)
Definition mi (n : Z) : Z := (n * 10 ^ 21)%Z.

Lemma scale_mi : forall n, IZR (mi n) = IZR n / 1000 * IZR scale.
Proof.
  intro n. unfold mi. replace scale with (10 ^ 21 * 1000)%Z by reflexivity.
  rewrite !mult_IZR. field.
Qed.

Lemma pieces_mi : forall n a w x, (0 < n)%nat ->
  IZR a / 1000 <= x <= IZR (a + Z.of_nat n * w) / 1000 ->
  exists I, In I (pieces (mi a) (mi w) n) /\ inI I x.
Proof.
  intros n a w x Hn Hx. apply pieces_ok; [exact Hn|].
  replace (mi a + Z.of_nat n * mi w)%Z with (mi (a + Z.of_nat n * w)) by (unfold mi; ring).
  unfold inI. cbn [fst snd]. rewrite !scale_mi. pose proof scale_pos. split; apply Rmult_le_compat_r; lra.
Qed.

Lemma in_lt : forall I J x y, inI I x -> inI J y -> (snd I <? fst J)%Z = true -> x < y.
Proof.
  intros I J x y [_ H1] [H2 _] Hb. apply Z.ltb_lt, IZR_lt in Hb. pose proof scale_pos.
  apply (Rmult_lt_reg_r (IZR scale)); lra.
Qed.

Lemma isub_ok : forall I J x y, inI I x -> inI J y ->
  inI ((fst I - snd J, snd I - fst J)%Z) (x - y).
Proof.
  intros [a b] [c d] x y [H1 H2] [H3 H4]. unfold inI in *. cbn [fst snd] in *.
  rewrite !minus_IZR. lra.
Qed.

Lemma dec_0 : dec 0 0 = 0.
Proof. unfold dec. cbn. ring. Qed.

Definition pos1 (l : coeffs) (I J K : itv) : bool := (0 <? fst (ihorner l I J K))%Z.
Definition neg1 (l : coeffs) (I J K : itv) : bool := (snd (ihorner l I J K) <? 0)%Z.

Definition bx := pieces (mi 0) (mi 6500) 1.
Definition bt := pieces (mi (-3000)) (mi 10750) 4.
Definition bp := pieces (mi 0) (mi 5000000) 2.

Lemma ocean_box : forall s t p, ocean s t p -> exists I J K,
  In I bx /\ In J bt /\ In K bp /\ inI I (sqrt s) /\ inI J t /\ inI K p.
Proof.
  intros s t p (Hs & Ht & Hp).
  assert (Hq : 0 <= sqrt s <= 65 / 10).
  { split; [apply sqrt_pos|]. rewrite <- (sqrt_square (65 / 10)) by lra. apply sqrt_le_1; lra. }
  destruct (pieces_mi 1 0 6500 (sqrt s)) as (I & HI & HI'); [lia|cbn; lra|].
  destruct (pieces_mi 4 (-3000) 10750 t) as (J & HJ & HJ'); [lia|cbn; lra|].
  destruct (pieces_mi 2 0 5000000 p) as (K & HK & HK'); [lia|cbn; lra|].
  exists I, J, K. repeat split; assumption || apply HI' || apply HJ' || apply HK'.
Qed.

Ltac boxed H := apply (on_boxes_ok _ bx bt bp H); assumption.

(** *** Jackett and McDougall (1995) *)
Definition jms (I J K : itv) : bool :=
  let k := ihorner jm_K_h I J K in
  let a := imul (imul (ihorner jm_rho0s_h I J K) k) (fst k - snd K, snd k - fst K)%Z in
  let b := imul (imul (ihorner jm_rho0_h I J K) K) (ihorner jm_Ks_h I J K) in
  (snd b <? fst a)%Z.

Lemma ck_K : on_boxes (fun I J K => snd K <? fst (ihorner jm_K_h I J K))%Z bx bt bp = true.
Proof. vm_compute. reflexivity. Qed.
Lemma ck_rho0 : on_boxes (pos1 jm_rho0_h) bx bt bp = true.
Proof. vm_compute. reflexivity. Qed.
Lemma ck_KKp : on_boxes (pos1 jm_KKp_h) bx bt bp = true.
Proof. vm_compute. reflexivity. Qed.
Lemma ck_jms : on_boxes jms bx bt bp = true.
Proof. vm_compute. reflexivity. Qed.

Ltac hring := unfold rhorner; cbn [horner fst snd poly fold_right d1 d2 d3 map pred INR pow];
  unfold poly; cbn [fold_right map d1 d2 d3 pred INR pow]; rewrite ?dec_0.

Lemma dec_mul : forall a m e, dec (a * m) e = IZR a * dec m e.
Proof. intros. unfold dec. rewrite mult_IZR. ring. Qed.

Lemma jm_K_horner : forall q t p, rhorner jm_K_h q t p = poly jm_K_terms q t p.
Proof. intros. unfold jm_K_h, jm_K_terms. hring. ring. Qed.
Lemma jm_rho0_horner : forall q t p, rhorner jm_rho0_h q t p = poly jm_rho0_terms q t 0.
Proof. intros. unfold jm_rho0_h, jm_rho0_terms. hring. ring. Qed.
Lemma jm_KKp_horner : forall q t p,
  rhorner jm_KKp_h q t p = poly jm_K_terms q t p - p * poly (d3 jm_K_terms) q t p.
Proof. intros. unfold jm_KKp_h, jm_K_terms. hring. unfold dec. ring. Qed.
Lemma jm_Ks_horner : forall q t p, q * rhorner jm_Ks_h q t p = poly (d1 jm_K_terms) q t p.
Proof. intros. unfold jm_Ks_h, jm_K_terms. hring. unfold dec. ring. Qed.
Lemma jm_rho0s_horner : forall q t p, q * rhorner jm_rho0s_h q t p = poly (d1 jm_rho0_terms) q t 0.
Proof. intros. unfold jm_rho0s_h, jm_rho0_terms. hring. unfold dec. ring. Qed.

Lemma jm_signs : forall s t p, ocean s t p ->
  p < jm_K s t p /\ 0 < jm_rho0 s t /\
  0 < jm_K s t p - p * poly (d3 jm_K_terms) (sqrt s) t p /\
  jm_rho0 s t * p * rhorner jm_Ks_h (sqrt s) t p <
  rhorner jm_rho0s_h (sqrt s) t p * jm_K s t p * (jm_K s t p - p).
Proof.
  intros s t p H. destruct (ocean_box _ _ _ H) as (I & J & K & HI & HJ & HK & HI' & HJ' & HK').
  unfold jm_K, jm_rho0. rewrite <- jm_KKp_horner.
  rewrite <- jm_K_horner, <- (jm_rho0_horner _ _ p).
  pose proof (fun l => ihorner_ok l _ _ _ _ _ _ HI' HJ' HK') as Hh.
  repeat split.
  - eapply in_lt; [exact HK'|apply Hh|]. boxed ck_K.
  - eapply in_pos; [apply Hh|]. boxed ck_rho0.
  - eapply in_pos; [apply Hh|]. boxed ck_KKp.
  - eapply in_lt.
    + apply imul_ok; [apply imul_ok; [apply Hh|exact HK']|apply Hh].
    + apply imul_ok; [apply imul_ok; apply Hh|]. apply isub_ok; [apply Hh|exact HK'].
    + boxed ck_jms.
Qed.

Lemma jm_ocean_dom : forall s t p, ocean s t p -> jm_dom s t p.
Proof.
  intros s t p H. pose proof (jm_signs _ _ _ H) as (Hk & _). destruct H as (Hs & _ & Hp).
  repeat split; lra.
Qed.

Lemma jm_rho_pos : forall s t p, ocean s t p -> 0 < jm_rho s t p.
Proof.
  intros s t p H. pose proof (jm_signs _ _ _ H) as (Hk & Hr & _). destruct H as (_ & _ & Hp).
  unfold jm_rho. apply Rdiv_lt_0_compat; [exact Hr|].
  replace (1 - p / jm_K s t p) with ((jm_K s t p - p) / jm_K s t p) by (field; lra).
  apply Rdiv_lt_0_compat; lra.
Qed.

Lemma jm_p_pos : forall s t p l, ocean s t p -> diff_p jm_rho s t p l -> 0 < l.
Proof.
  intros s t p l H Hl. pose proof (jm_signs _ _ _ H) as (Hk & Hr & Hkk & _). destruct H as (_ & _ & Hp).
  assert (E : l = jm_rho0 s t * (jm_K s t p - p * poly (d3 jm_K_terms) (sqrt s) t p)
                  / ((jm_K s t p - p) * (jm_K s t p - p))).
  { eapply uniqueness_limite; [exact Hl|].
    apply (quotient_p (fun p => jm_K s t p) (jm_rho0 s t)); try lra. apply poly_d3. }
  rewrite E. apply Rdiv_lt_0_compat; apply Rmult_lt_0_compat; lra.
Qed.

Lemma jm_s_pos : forall s t p l, ocean s t p -> 0 < s -> diff_s jm_rho s t p l -> 0 < l.
Proof.
  intros s t p l H Hs Hl. pose proof (jm_signs _ _ _ H) as (Hk & Hr & _ & Hks). destruct H as (_ & _ & Hp).
  assert (Hq : 0 < sqrt s) by (apply sqrt_lt_R0; exact Hs).
  set (q := sqrt s) in *. set (k := rhorner jm_Ks_h q t p) in *. set (r := rhorner jm_rho0s_h q t p) in *.
  assert (E : l = (r * / 2 * jm_K s t p - jm_rho0 s t * p / (jm_K s t p - p) * (k * / 2)) / (jm_K s t p - p)).
  { eapply uniqueness_limite; [exact Hl|].
    apply (quotient_s (fun s => jm_rho0 s t) (fun s => jm_K s t p)); try lra.
    - eapply lim_eq; [apply poly_sqrt; exact Hs|]. fold q. rewrite <- (jm_rho0s_horner _ _ p). fold r.
      field. lra.
    - eapply lim_eq; [apply poly_sqrt; exact Hs|]. fold q. rewrite <- jm_Ks_horner. fold k.
      field. lra. }
  rewrite E.
  replace ((r * / 2 * jm_K s t p - jm_rho0 s t * p / (jm_K s t p - p) * (k * / 2)) / (jm_K s t p - p))
    with ((r * jm_K s t p * (jm_K s t p - p) - jm_rho0 s t * p * k) / (2 * ((jm_K s t p - p) * (jm_K s t p - p))))
    by (field; lra).
  apply Rdiv_lt_0_compat; [lra|]. apply Rmult_lt_0_compat; [lra|]. apply Rmult_lt_0_compat; lra.
Qed.

(** *** Jackett et al. (2006) *)
Definition jfd (I J K : itv) : itv := iadd (ihorner jf_den_h I J K) (idec 1 (-40)).
Definition jfp (I J K : itv) : bool :=
  (snd (imul (ihorner jf_num_h I J K) (ihorner jf_denp_h I J K)) <?
   fst (imul (ihorner jf_nump_h I J K) (jfd I J K)))%Z.
Definition jfs (I J K : itv) : bool :=
  (snd (imul (ihorner jf_num_h I J K) (ihorner jf_dens_h I J K)) <?
   fst (imul (ihorner jf_nums_h I J K) (jfd I J K)))%Z.

Lemma ck_num : on_boxes (pos1 jf_num_h) bx bt bp = true.
Proof. vm_compute. reflexivity. Qed.
Lemma ck_den : on_boxes (fun I J K => 0 <? fst (jfd I J K))%Z bx bt bp = true.
Proof. vm_compute. reflexivity. Qed.
Lemma ck_jfp : on_boxes jfp bx bt bp = true.
Proof. vm_compute. reflexivity. Qed.
Lemma ck_jfs : on_boxes jfs bx bt bp = true.
Proof. vm_compute. reflexivity. Qed.

Lemma jf_num_horner : forall q t p, rhorner jf_num_h q t p = poly jf_num_terms q t p.
Proof. intros. unfold jf_num_h, jf_num_terms. hring. unfold dec. ring. Qed.
Lemma jf_den_horner : forall q t p, rhorner jf_den_h q t p + dec 1 (-40) = poly jf_den_terms q t p.
Proof. intros. unfold jf_den_h, jf_den_terms. hring. unfold dec. ring. Qed.
Lemma jf_nump_horner : forall q t p, rhorner jf_nump_h q t p = poly (d3 jf_num_terms) q t p.
Proof. intros. unfold jf_nump_h, jf_num_terms. hring. unfold dec. ring. Qed.
Lemma jf_denp_horner : forall q t p, rhorner jf_denp_h q t p = poly (d3 jf_den_terms) q t p.
Proof. intros. unfold jf_denp_h, jf_den_terms. hring. unfold dec. ring. Qed.
Lemma jf_nums_horner : forall q t p, q * rhorner jf_nums_h q t p = poly (d1 jf_num_terms) q t p.
Proof. intros. unfold jf_nums_h, jf_num_terms. hring. unfold dec. ring. Qed.
Lemma jf_dens_horner : forall q t p, q * rhorner jf_dens_h q t p = poly (d1 jf_den_terms) q t p.
Proof. intros. unfold jf_dens_h, jf_den_terms. hring. unfold dec. ring. Qed.

Lemma jf_signs : forall s t p, ocean s t p ->
  0 < jf_num s t p /\ 0 < jf_den s t p /\
  jf_num s t p * poly (d3 jf_den_terms) (sqrt s) t p < poly (d3 jf_num_terms) (sqrt s) t p * jf_den s t p /\
  jf_num s t p * rhorner jf_dens_h (sqrt s) t p < rhorner jf_nums_h (sqrt s) t p * jf_den s t p.
Proof.
  intros s t p H. destruct (ocean_box _ _ _ H) as (I & J & K & HI & HJ & HK & HI' & HJ' & HK').
  unfold jf_num, jf_den.
  rewrite <- jf_num_horner, <- jf_den_horner, <- jf_nump_horner, <- jf_denp_horner.
  pose proof (fun l => ihorner_ok l _ _ _ _ _ _ HI' HJ' HK') as Hh.
  assert (Hd : inI (jfd I J K) (rhorner jf_den_h (sqrt s) t p + dec 1 (-40))).
  { apply iadd_ok; [apply Hh|apply idec_ok]. }
  repeat split.
  - eapply in_pos; [apply Hh|]. boxed ck_num.
  - eapply in_pos; [exact Hd|]. boxed ck_den.
  - eapply in_lt; [apply imul_ok; apply Hh|apply imul_ok; [apply Hh|exact Hd]|]. boxed ck_jfp.
  - eapply in_lt; [apply imul_ok; apply Hh|apply imul_ok; [apply Hh|exact Hd]|]. boxed ck_jfs.
Qed.

Lemma jf_ocean_dom : forall s t p, ocean s t p -> jf_dom s t p.
Proof.
  intros s t p H. pose proof (jf_signs _ _ _ H) as (_ & Hk & _). destruct H as (Hs & _ & Hp).
  split; lra.
Qed.

Lemma jf_rho_pos : forall s t p, ocean s t p -> 0 < jf_rho s t p.
Proof.
  intros s t p H. pose proof (jf_signs _ _ _ H) as (Hn & Hd & _).
  unfold jf_rho. apply Rdiv_lt_0_compat; assumption.
Qed.

Lemma ratio_pos : forall n d n' d', 0 < d -> n * d' < n' * d -> 0 < (n' - n * d' * (1 / d)) * (1 / d).
Proof.
  intros n d n' d' Hd Hb.
  replace ((n' - n * d' * (1 / d)) * (1 / d)) with ((n' * d - n * d') / (d * d)) by (field; lra).
  apply Rdiv_lt_0_compat; [lra|]. apply Rmult_lt_0_compat; exact Hd.
Qed.

Lemma jf_p_pos : forall s t p l, ocean s t p -> diff_p jf_rho s t p l -> 0 < l.
Proof.
  intros s t p l H Hl. pose proof (jf_signs _ _ _ H) as (Hn & Hd & Hb & _).
  assert (E : l = (poly (d3 jf_num_terms) (sqrt s) t p
                   - jf_num s t p * poly (d3 jf_den_terms) (sqrt s) t p * (1 / jf_den s t p))
                  * (1 / jf_den s t p)).
  { eapply uniqueness_limite; [exact Hl|].
    apply (ratio (fun p => jf_num s t p) (fun p => jf_den s t p)); [apply poly_d3|apply poly_d3|lra]. }
  rewrite E. apply ratio_pos; assumption.
Qed.

Lemma jf_s_pos : forall s t p l, ocean s t p -> 0 < s -> diff_s jf_rho s t p l -> 0 < l.
Proof.
  intros s t p l H Hs Hl. pose proof (jf_signs _ _ _ H) as (Hn & Hd & _ & Hb).
  assert (Hq : 0 < sqrt s) by (apply sqrt_lt_R0; exact Hs).
  set (q := sqrt s) in *. set (n' := rhorner jf_nums_h q t p) in *. set (d' := rhorner jf_dens_h q t p) in *.
  assert (E : l = (n' * / 2 - jf_num s t p * (d' * / 2) * (1 / jf_den s t p)) * (1 / jf_den s t p)).
  { eapply uniqueness_limite; [exact Hl|].
    apply (ratio (fun s => jf_num s t p) (fun s => jf_den s t p)); [| |lra].
    - eapply lim_eq; [apply poly_sqrt; exact Hs|]. fold q. rewrite <- jf_nums_horner. fold n'.
      field. lra.
    - eapply lim_eq; [apply poly_sqrt; exact Hs|]. fold q. rewrite <- jf_dens_horner. fold d'.
      field. lra. }
  rewrite E. apply ratio_pos; [exact Hd|lra].
Qed.

(** *** TEOS-10 *)
Definition vx1 := pieces (mi 770) (mi 540) 1.
Definition vx2 := pieces (mi 770) (mi 270) 2.
Definition vx36 := pieces (mi 770) (mi 15) 36.
Definition vt := pieces (mi (-75)) (mi 540) 2.
Definition vp := pieces (mi 0) (mi 1000) 1.

Lemma ck_v : on_boxes (pos1 teos_h) vx1 vt vp = true.
Proof. vm_compute. reflexivity. Qed.
Lemma ck_vp : on_boxes (neg1 teos_p_h) vx2 vt vp = true.
Proof. vm_compute. reflexivity. Qed.
Lemma ck_vs : on_boxes (neg1 teos_s_h) vx36 vt vp = true.
Proof. vm_compute. reflexivity. Qed.

Lemma teos_horner : forall x y z, rhorner teos_h x y z = poly teos_terms x y z.
Proof. intros. unfold teos_h, teos_terms. hring. unfold dec. ring. Qed.
Lemma teos_p_horner : forall x y z, rhorner teos_p_h x y z = poly (d3 teos_terms) x y z.
Proof. intros. unfold teos_p_h, teos_terms. hring. unfold dec. ring. Qed.
Lemma teos_s_horner : forall x y z, rhorner teos_s_h x y z = poly (d1 teos_terms) x y z.
Proof. intros. unfold teos_s_h, teos_terms. hring. unfold dec. ring. Qed.

Definition deep (t p : R) : Prop := -3 <= t <= 40 /\ 0 <= p <= 10000.

Lemma dec_val : forall m k, dec m (Zneg k) = IZR m / IZR (10 ^ Zpos k).
Proof.
  intros m k. unfold dec, Rdiv. f_equal. cbn [powerRZ]. f_equal.
  rewrite <- (powerRZ_Z (Zpos k)) by lia. reflexivity.
Qed.

Lemma sf_val : sf = 248826675584615 / 10000000000000000.
Proof. exact (dec_val _ 16). Qed.
Lemma off_val : off = 5971840214030754 / 10000000000000000.
Proof. exact (dec_val _ 16). Qed.
Lemma tf_val : tf = 25 / 1000.
Proof. exact (dec_val _ 3). Qed.
Lemma pf_val : pf = 1 / 10000.
Proof. exact (dec_val _ 4). Qed.

Lemma x_range : forall s, s <= 42 -> 77 / 100 <= teos_x (Rmax s 0) <= 131 / 100.
Proof.
  intros s Hs. pose proof (teos_x_pos s) as H0. pose proof (teos_x_sq s) as H2.
  rewrite sf_val, off_val in H2. set (x := teos_x (Rmax s 0)) in *.
  assert (0 <= Rmax s 0 <= 42).
  { split; [apply Rmax_r|]. apply Rmax_lub; lra. }
  split; apply Rnot_lt_le; intro Hc; nra.
Qed.

Lemma deep_box : forall t p, deep t p -> exists J K, In J vt /\ In K vp /\ inI J (t * tf) /\ inI K (p * pf).
Proof.
  intros t p (Ht & Hp). rewrite tf_val, pf_val.
  destruct (pieces_mi 2 (-75) 540 (t * (25 / 1000))) as (J & HJ & HJ'); [lia|cbn; lra|].
  destruct (pieces_mi 1 0 1000 (p * (1 / 10000))) as (K & HK & HK'); [lia|cbn; lra|].
  exists J, K. repeat split; assumption || apply HJ' || apply HK'.
Qed.

Lemma teos_signs : forall s t p, s <= 42 -> deep t p ->
  0 < teos_d 0 0 0 s t p /\ teos_d 0 0 1 s t p < 0 /\ teos_d 1 0 0 s t p < 0.
Proof.
  intros s t p Hs Hd. pose proof (x_range s Hs) as Hx. pose proof (teos_x_pos s) as H0.
  destruct (deep_box _ _ Hd) as (J & K & HJ & HK & HJ' & HK').
  pose proof sf_pos as Hsf. pose proof pf_val as Hpf.
  unfold teos_d. cbn [D Nat.iter nat_rect pow].
  rewrite <- teos_horner, <- teos_p_horner, <- teos_s_horner.
  set (x := teos_x (Rmax s 0)) in *.
  destruct (pieces_mi 1 770 540 x) as (I1 & HI1 & HI1'); [lia|cbn; lra|].
  destruct (pieces_mi 2 770 270 x) as (I2 & HI2 & HI2'); [lia|cbn; lra|].
  destruct (pieces_mi 36 770 15 x) as (I3 & HI3 & HI3'); [lia|cbn; lra|].
  assert (A : 0 < rhorner teos_h x (t * tf) (p * pf)).
  { eapply in_pos; [apply (ihorner_ok _ _ _ _ _ _ _ HI1' HJ' HK')|].
    apply (on_boxes_ok _ _ _ _ ck_v); assumption. }
  assert (B : rhorner teos_p_h x (t * tf) (p * pf) < 0).
  { eapply in_neg; [apply (ihorner_ok _ _ _ _ _ _ _ HI2' HJ' HK')|].
    apply (on_boxes_ok _ _ _ _ ck_vp); assumption. }
  assert (C : rhorner teos_s_h x (t * tf) (p * pf) < 0).
  { eapply in_neg; [apply (ihorner_ok _ _ _ _ _ _ _ HI3' HJ' HK')|].
    apply (on_boxes_ok _ _ _ _ ck_vs); assumption. }
  repeat split.
  - lra.
  - assert (Hpf0 : 0 < pf) by lra. rewrite !Rmult_1_r. revert B. generalize (rhorner teos_p_h x (t * tf) (p * pf)). intros b B. nra.
  - rewrite !Rmult_1_r. apply Ropp_lt_cancel. rewrite Ropp_0, Ropp_mult_distr_l. 
    apply Rmult_lt_0_compat; [|exact Hsf]. unfold Rdiv. rewrite Ropp_mult_distr_l.
    apply Rmult_lt_0_compat; [lra|]. apply Rinv_0_lt_compat. lra.
Qed.
