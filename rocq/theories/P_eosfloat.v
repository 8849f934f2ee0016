(** * Rounding errors of the equations of state *)
From Coq Require Import ZArith Reals Bool Lia Lra Psatz SpecFloat List.
From Verif Require Import Num SF Res M_eos_base M_jmd95 M_jmdfwg06 M_gsw S_eos S_float P_float P_floaterr P_eos P_eosocean P_eosocean2.
Open Scope R_scope.

Definition rel2 (a : ev * ev) (x : f64 * f64) (v : R * R) : Prop :=
  rel (fst a) (fst x) (fst v) /\ rel (snd a) (snd x) (snd v).

Ltac rels :=
  lazymatch goal with
  | |- rrel _ (let! q := _ in _) _ _ =>
      let a := fresh "a" in let x := fresh "x" in let v := fresh "v" in let H := fresh "H" in
      eapply rrel_bind; [apply rel_dv; [assumption| |]; rels | intros a x v H; cbv beta; rels]
  | |- rrel rel2 (Ok _) _ _ => apply rrel_ok; split; cbn [fst snd]; rels
  | |- rrel rel (Ok _) _ _ => apply rrel_ok; rels
  | _ => repeat rel1
  end.

Section Rel.
  Variables (dx : f64 -> f64 -> res f64) (dr : R -> R -> res R).
  Hypothesis D : dv_pair dx dr.

  Lemma jmd95_rho_rel a b c s t p vs vt vp : rel a s vs -> rel b t vt -> rel c p vp ->
    rrel rel (jmd95_rho e_dv a b c) (jmd95_rho dx s t p) (jmd95_rho dr vs vt vp).
  Proof. intros A B C. cbv beta zeta delta [jmd95_rho]. rels. Qed.

  Lemma jmd95_rho_p_rel a b c s t p vs vt vp : rel a s vs -> rel b t vt -> rel c p vp ->
    rrel rel (jmd95_rho_p e_dv a b c) (jmd95_rho_p dx s t p) (jmd95_rho_p dr vs vt vp).
  Proof.
    intros A B C. cbv beta zeta delta [jmd95_rho_p
    eosJMDCFw0 eosJMDCFw1 eosJMDCFw2 eosJMDCFw3 eosJMDCFw4 eosJMDCFw5 eosJMDCSw0 eosJMDCSw1
    eosJMDCSw2 eosJMDCSw3 eosJMDCSw4 eosJMDCSw5 eosJMDCSw6 eosJMDCSw7 eosJMDCSw8 eosJMDCKFw0
    eosJMDCKFw1 eosJMDCKFw2 eosJMDCKFw3 eosJMDCKFw4 eosJMDCKSw0 eosJMDCKSw1 eosJMDCKSw2 eosJMDCKSw3
    eosJMDCKSw4 eosJMDCKSw5 eosJMDCKSw6 eosJMDCKP0 eosJMDCKP1 eosJMDCKP2 eosJMDCKP3 eosJMDCKP4
    eosJMDCKP5 eosJMDCKP6 eosJMDCKP7 eosJMDCKP8 eosJMDCKP9 eosJMDCKP10 eosJMDCKP11 eosJMDCKP12
    eosJMDCKP13].
    rels.
  Qed.

  Lemma jmd95_rho_s_t_rel a b c s t p vs vt vp : rel a s vs -> rel b t vt -> rel c p vp ->
    rrel rel2 (jmd95_rho_s_t e_dv a b c) (jmd95_rho_s_t dx s t p) (jmd95_rho_s_t dr vs vt vp).
  Proof.
    intros A B C. cbv beta zeta delta [jmd95_rho_s_t
    eosJMDCFw0 eosJMDCFw1 eosJMDCFw2 eosJMDCFw3 eosJMDCFw4 eosJMDCFw5 eosJMDCSw0 eosJMDCSw1
    eosJMDCSw2 eosJMDCSw3 eosJMDCSw4 eosJMDCSw5 eosJMDCSw6 eosJMDCSw7 eosJMDCSw8 eosJMDCKFw0
    eosJMDCKFw1 eosJMDCKFw2 eosJMDCKFw3 eosJMDCKFw4 eosJMDCKSw0 eosJMDCKSw1 eosJMDCKSw2 eosJMDCKSw3
    eosJMDCKSw4 eosJMDCKSw5 eosJMDCKSw6 eosJMDCKP0 eosJMDCKP1 eosJMDCKP2 eosJMDCKP3 eosJMDCKP4
    eosJMDCKP5 eosJMDCKP6 eosJMDCKP7 eosJMDCKP8 eosJMDCKP9 eosJMDCKP10 eosJMDCKP11 eosJMDCKP12
    eosJMDCKP13].
    rels.
  Qed.

  Lemma jmdfwg06_rho_rel a b c s t p vs vt vp : rel a s vs -> rel b t vt -> rel c p vp ->
    rrel rel (jmdfwg06_rho e_dv a b c) (jmdfwg06_rho dx s t p) (jmdfwg06_rho dr vs vt vp).
  Proof.
    intros A B C. cbv beta zeta delta [jmdfwg06_rho
    jf_a0 jf_a1 jf_a2 jf_a3 jf_a4 jf_a5 jf_a6 jf_a7 jf_a8 jf_a9 jf_a10 jf_a11 jf_b0 jf_b1 jf_b2 jf_b3
    jf_b4 jf_b5 jf_b6 jf_b7 jf_b8 jf_b9 jf_b10 jf_b11 jf_b12 jf_epsln].
    rels.
  Qed.

  Lemma jmdfwg06_rho_p_rel a b c s t p vs vt vp : rel a s vs -> rel b t vt -> rel c p vp ->
    rrel rel (jmdfwg06_rho_p e_dv a b c) (jmdfwg06_rho_p dx s t p) (jmdfwg06_rho_p dr vs vt vp).
  Proof.
    intros A B C. cbv beta zeta delta [jmdfwg06_rho_p
    jf_a0 jf_a1 jf_a2 jf_a3 jf_a4 jf_a5 jf_a6 jf_a7 jf_a8 jf_a9 jf_a10 jf_a11 jf_b0 jf_b1 jf_b2 jf_b3
    jf_b4 jf_b5 jf_b6 jf_b7 jf_b8 jf_b9 jf_b10 jf_b11 jf_b12 jf_epsln].
    rels.
  Qed.

  Lemma jmdfwg06_rho_s_t_rel a b c s t p vs vt vp : rel a s vs -> rel b t vt -> rel c p vp ->
    rrel rel2 (jmdfwg06_rho_s_t e_dv a b c) (jmdfwg06_rho_s_t dx s t p) (jmdfwg06_rho_s_t dr vs vt vp).
  Proof.
    intros A B C. cbv beta zeta delta [jmdfwg06_rho_s_t
    jf_a0 jf_a1 jf_a2 jf_a3 jf_a4 jf_a5 jf_a6 jf_a7 jf_a8 jf_a9 jf_a10 jf_a11 jf_b0 jf_b1 jf_b2 jf_b3
    jf_b4 jf_b5 jf_b6 jf_b7 jf_b8 jf_b9 jf_b10 jf_b11 jf_b12 jf_epsln].
    rels.
  Qed.

  Lemma gsw__specvol_rel a b c s t p vs vt vp : rel a s vs -> rel b t vt -> rel c p vp ->
    rrel rel (gsw__specvol a b c) (gsw__specvol s t p) (gsw__specvol vs vt vp).
  Proof.
    intros A B C. cbv beta zeta delta [gsw__specvol tfac pfac sfac offset
    v000 v001 v002 v003 v004 v005 v006 v010 v011 v012 v013 v014 v020 v021 v022 v023 v030 v031 v032
    v040 v041 v042 v050 v051 v060 v100 v101 v102 v103 v104 v110 v111 v112 v113 v120 v121 v122 v130
    v131 v132 v140 v141 v150 v200 v201 v202 v203 v210 v211 v212 v220 v221 v222 v230 v231 v240 v300
    v301 v302 v310 v311 v312 v320 v321 v330 v400 v401 v402 v410 v411 v420 v500 v501 v510 v600].
    rels.
  Qed.

  Lemma gsw__p_rel a b c s t p vs vt vp : rel a s vs -> rel b t vt -> rel c p vp ->
    rrel rel (gsw__p a b c) (gsw__p s t p) (gsw__p vs vt vp).
  Proof.
    intros A B C. cbv beta zeta delta [gsw__p tfac pfac sfac offset
    v000 v001 v002 v003 v004 v005 v006 v010 v011 v012 v013 v014 v020 v021 v022 v023 v030 v031 v032
    v040 v041 v042 v050 v051 v060 v100 v101 v102 v103 v104 v110 v111 v112 v113 v120 v121 v122 v130
    v131 v132 v140 v141 v150 v200 v201 v202 v203 v210 v211 v212 v220 v221 v222 v230 v231 v240 v300
    v301 v302 v310 v311 v312 v320 v321 v330 v400 v401 v402 v410 v411 v420 v500 v501 v510 v600].
    rels.
  Qed.

  Lemma gsw__t_rel a b c s t p vs vt vp : rel a s vs -> rel b t vt -> rel c p vp ->
    rrel rel (gsw__t a b c) (gsw__t s t p) (gsw__t vs vt vp).
  Proof.
    intros A B C. cbv beta zeta delta [gsw__t tfac pfac sfac offset
    v000 v001 v002 v003 v004 v005 v006 v010 v011 v012 v013 v014 v020 v021 v022 v023 v030 v031 v032
    v040 v041 v042 v050 v051 v060 v100 v101 v102 v103 v104 v110 v111 v112 v113 v120 v121 v122 v130
    v131 v132 v140 v141 v150 v200 v201 v202 v203 v210 v211 v212 v220 v221 v222 v230 v231 v240 v300
    v301 v302 v310 v311 v312 v320 v321 v330 v400 v401 v402 v410 v411 v420 v500 v501 v510 v600].
    rels.
  Qed.

  Lemma gsw__s_rel a b c s t p vs vt vp : rel a s vs -> rel b t vt -> rel c p vp ->
    rrel rel (gsw__s e_dv a b c) (gsw__s dx s t p) (gsw__s dr vs vt vp).
  Proof.
    intros A B C. cbv beta zeta delta [gsw__s tfac pfac sfac offset
    v000 v001 v002 v003 v004 v005 v006 v010 v011 v012 v013 v014 v020 v021 v022 v023 v030 v031 v032
    v040 v041 v042 v050 v051 v060 v100 v101 v102 v103 v104 v110 v111 v112 v113 v120 v121 v122 v130
    v131 v132 v140 v141 v150 v200 v201 v202 v203 v210 v211 v212 v220 v221 v222 v230 v231 v240 v300
    v301 v302 v310 v311 v312 v320 v321 v330 v400 v401 v402 v410 v411 v420 v500 v501 v510 v600].
    rels.
  Qed.
End Rel.
