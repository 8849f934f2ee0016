(** * Second derivatives, along lines, of the partial derivatives of the equations of state *)
From Coq Require Import ZArith Reals Bool Lia Lra Psatz List.
From Coquelicot Require Import Coquelicot.
From Verif Require Import Num Res M_eos_base M_jmd95 M_jmdfwg06 M_gsw P_floaterr P_eosfloat2 P_jet.
#[local] Existing Instance fnNum.
#[local] Existing Instance jetNum.
Local Open Scope R_scope.

Section Rel.
  Variables (X : R -> Prop) (L x0 : R).
  Hypotheses (L0 : 0 <= L) (X0 : X x0).
  Variables (dr : R -> R -> res R).
  Hypothesis D : dr = sdiv \/ dr = adiv.

  Notation rel := (jrel X L x0).
  Definition jrel2 (a : jet * jet) (x : (R -> R) * (R -> R)) (v : R * R) : Prop :=
    rel (fst a) (fst x) (fst v) /\ rel (snd a) (snd x) (snd v).
  Definition jrel4 (a : jet * jet * jet * jet) (x : (R -> R) * (R -> R) * (R -> R) * (R -> R)) (v : R * R * R * R) : Prop :=
    let '(a1, a2, a3, a4) := a in let '(x1, x2, x3, x4) := x in let '(v1, v2, v3, v4) := v in
    rel a1 x1 v1 /\ rel a2 x2 v2 /\ rel a3 x3 v3 /\ rel a4 x4 v4.

  Ltac rels :=
    lazymatch goal with
    | |- rrel _ (let! q := _ in _) _ _ =>
        let a := fresh "a" in let x := fresh "x" in let v := fresh "v" in let H := fresh "H" in
        eapply (rrel_bind (jrel X L x0)); [apply jrel_dv; [assumption|assumption|assumption| |]; rels | intros a x v H; cbv beta; rels]
    | |- rrel jrel2 (Ok _) _ _ => apply rrel_ok; split; cbn [fst snd]; rels
    | |- rrel _ (Ok _) _ _ => apply rrel_ok; rels
    | _ => repeat jrel1
    end.

  Lemma jmd95_rho_s_t_jrel a b c s t p vs vt vp : rel a s vs -> rel b t vt -> rel c p vp ->
    rrel jrel2 (jmd95_rho_s_t j_dv a b c) (jmd95_rho_s_t f_dv s t p) (jmd95_rho_s_t dr vs vt vp).
  Proof.
    intros A B C. cbv beta zeta delta [jmd95_rho_s_t
    eosJMDCFw0 eosJMDCFw1 eosJMDCFw2 eosJMDCFw3 eosJMDCFw4 eosJMDCFw5 eosJMDCSw0 eosJMDCSw1
    eosJMDCSw2 eosJMDCSw3 eosJMDCSw4 eosJMDCSw5 eosJMDCSw6 eosJMDCSw7 eosJMDCSw8 eosJMDCKFw0
    eosJMDCKFw1 eosJMDCKFw2 eosJMDCKFw3 eosJMDCKFw4 eosJMDCKSw0 eosJMDCKSw1 eosJMDCKSw2 eosJMDCKSw3
    eosJMDCKSw4 eosJMDCKSw5 eosJMDCKSw6 eosJMDCKP0 eosJMDCKP1 eosJMDCKP2 eosJMDCKP3 eosJMDCKP4
    eosJMDCKP5 eosJMDCKP6 eosJMDCKP7 eosJMDCKP8 eosJMDCKP9 eosJMDCKP10 eosJMDCKP11 eosJMDCKP12
    eosJMDCKP13].
    rels.
  Qed.

  Lemma jmdfwg06_rho_s_t_jrel a b c s t p vs vt vp : rel a s vs -> rel b t vt -> rel c p vp ->
    rrel jrel2 (jmdfwg06_rho_s_t j_dv a b c) (jmdfwg06_rho_s_t f_dv s t p) (jmdfwg06_rho_s_t dr vs vt vp).
  Proof.
    intros A B C. cbv beta zeta delta [jmdfwg06_rho_s_t
    jf_a0 jf_a1 jf_a2 jf_a3 jf_a4 jf_a5 jf_a6 jf_a7 jf_a8 jf_a9 jf_a10 jf_a11 jf_b0 jf_b1 jf_b2 jf_b3
    jf_b4 jf_b5 jf_b6 jf_b7 jf_b8 jf_b9 jf_b10 jf_b11 jf_b12 jf_epsln].
    rels.
  Qed.

  Lemma gsw__t_jrel a b c s t p vs vt vp : rel a s vs -> rel b t vt -> rel c p vp ->
    rrel rel (gsw__t a b c) (gsw__t s t p) (gsw__t vs vt vp).
  Proof.
    intros A B C. cbv beta zeta delta [gsw__t tfac pfac sfac offset
    v000 v001 v002 v003 v004 v005 v006 v010 v011 v012 v013 v014 v020 v021 v022 v023 v030 v031 v032
    v040 v041 v042 v050 v051 v060 v100 v101 v102 v103 v104 v110 v111 v112 v113 v120 v121 v122 v130
    v131 v132 v140 v141 v150 v200 v201 v202 v203 v210 v211 v212 v220 v221 v222 v230 v231 v240 v300
    v301 v302 v310 v311 v312 v320 v321 v330 v400 v401 v402 v410 v411 v420 v500 v501 v510 v600].
    rels.
  Qed.

  Lemma gsw__s_jrel a b c s t p vs vt vp : rel a s vs -> rel b t vt -> rel c p vp ->
    rrel rel (gsw__s j_dv a b c) (gsw__s f_dv s t p) (gsw__s dr vs vt vp).
  Proof.
    intros A B C. cbv beta zeta delta [gsw__s tfac pfac sfac offset
    v000 v001 v002 v003 v004 v005 v006 v010 v011 v012 v013 v014 v020 v021 v022 v023 v030 v031 v032
    v040 v041 v042 v050 v051 v060 v100 v101 v102 v103 v104 v110 v111 v112 v113 v120 v121 v122 v130
    v131 v132 v140 v141 v150 v200 v201 v202 v203 v210 v211 v212 v220 v221 v222 v230 v231 v240 v300
    v301 v302 v310 v311 v312 v320 v321 v330 v400 v401 v402 v410 v411 v420 v500 v501 v510 v600].
    rels.
  Qed.


  Lemma process_jrel a b c s t p vs vt vp : 0 <= vs -> rel a s vs -> rel b t vt -> rel c p vp ->
    rrel jrel4 (gsw__process a b c) (gsw__process s t p) (gsw__process vs vt vp).
  Proof.
    intros P A B C. unfold gsw__process.
    change (npmaximum a (lit 0 0)) with a. change (npmaximum s (lit 0 0)) with s. rewrite Rmax0, Rmax_left by exact P.
    cbv zeta. unfold tfac, pfac, sfac, offset.
    apply rrel_ok. unfold jrel4. refine (conj _ (conj _ (conj _ _))); repeat jrel1.
  Qed.
  Lemma gsw_specvol_s_t_jrel a b c s t p vs vt vp : 0 <= vs -> rel a s vs -> rel b t vt -> rel c p vp ->
    rrel jrel2 (gsw_specvol_s_t j_dv a b c) (gsw_specvol_s_t f_dv s t p) (gsw_specvol_s_t dr vs vt vp).
  Proof.
    intros P A B C. unfold gsw_specvol_s_t. eapply rrel_bind; [apply process_jrel; eassumption|].
    intros [[[a1 a2] a3] a4] [[[x1 x2] x3] x4] [[[v1 v2] v3] v4] (H1 & H2 & H3 & _).
    eapply rrel_bind; [apply gsw__s_jrel; eassumption|]. intros y1 y2 y3 Y.
    eapply rrel_bind; [apply gsw__t_jrel; eassumption|]. intros z1 z2 z3 Z.
    apply rrel_ok. now split.
  Qed.
End Rel.

(** waters of at least the salinity lo (in units of 2^-120); salinity and temperature change at most by 1 and pressure at most
    by 150 while the argument changes by 1 / L *)
Definition j_s (lo : Z) : jet := Jet lo (upU 42) (upU 1) 0.
Definition j_t : jet := Jet (upU (-3)) (upU 40) (upU 1) 0.
Definition j_p : jet := Jet (upU 0) (upU 10000) (upU 150) 0.
(** the sum of the bounds of the second derivatives is at most n / 10 ^ k *)
Definition bends (r : res (jet * jet)) (n k : Z) : bool :=
  match r with Ok (Jet _ _ _ a, Jet _ _ _ b) => (0 <=? a)%Z && (0 <=? b)%Z && ((a + b) * 10 ^ k <=? n * UZ)%Z | _ => false end.

Lemma bends_ok X L J n k (fn : res ((R -> R) * (R -> R))) (fr : R -> res (R * R)) (y z : R -> R) : 0 <= L -> (exists x, X x) -> (0 < 10 ^ k)%Z ->
  bends J n k = true -> (forall x, X x -> rrel (jrel2 X L x) J fn (fr x)) -> (forall x, X x -> fr x = Ok (y x, z x)) ->
  exists F F1 F2 G G1 G2 a b, a + b <= IZR n / IZR (10 ^ k) /\ 0 <= a /\ 0 <= b /\ forall x, X x ->
    F x = y x /\ G x = z x /\ is_derive F x (F1 x) /\ is_derive F1 x (F2 x) /\ is_derive G x (G1 x) /\ is_derive G1 x (G2 x)
    /\ Rabs (F2 x) <= a * (L * L) /\ Rabs (G2 x) <= b * (L * L).
Proof.
  intros L0 (w & Hw) K HJ HR HV. unfold bends in HJ. destruct J as [[[|l1 h1 a1 a2] [|l2 h2 b1 b2]]|]; try discriminate.
  rewrite !andb_true_iff, !Z.leb_le in HJ. destruct HJ as [[P1 P2] HJ]. apply IZR_le in HJ, P1, P2. rewrite !mult_IZR, plus_IZR, <- UR_UZ in HJ. apply IZR_lt in K.
  pose proof UR_pos as U.
  destruct (HR w Hw) as ([F G] & v & E & _ & (Q1 & Q2)). cbn [fst snd] in Q1, Q2.
  destruct Q1 as [(F1 & F2 & HF) _]. destruct Q2 as [(G1 & G2 & HG) _].
  exists F, F1, F2, G, G1, G2, (IZR a2 / UR), (IZR b2 / UR).
  assert (Iu : 0 < / UR) by now apply Rinv_0_lt_compat.
  split; [|split; [|split]].
  - apply Rdiv_le_l; [exact K|]. replace ((IZR a2 / UR + IZR b2 / UR) * IZR (10 ^ k)) with ((IZR a2 + IZR b2) * IZR (10 ^ k) / UR) by (field; lra).
    apply Rdiv_le_r; [exact U|]. exact HJ.
  - apply Rmult_le_pos; lra.
  - apply Rmult_le_pos; lra.
  - intros x Hx. destruct (HF x Hx) as (A1 & A2 & (_ & _ & A3)), (HG x Hx) as (B1 & B2 & (_ & _ & B3)).
    destruct (HR x Hx) as ([F' G'] & [v1 v2] & E' & V & (Q1 & Q2)). rewrite E in E'. injection E' as <- <-. rewrite (HV x Hx) in V. injection V as <- <-.
    destruct Q1 as [_ Q1], Q2 as [_ Q2]. cbn [fst snd] in Q1, Q2.
    split; [exact Q1|]. split; [exact Q2|]. split; [exact A1|]. split; [exact A2|]. split; [exact B1|]. split; [exact B2|]. split.
    + replace (IZR a2 / UR * (L * L)) with (IZR a2 * (L * L) / UR) by (field; lra). apply Rdiv_le_l; [exact U|exact A3].
    + replace (IZR b2 / UR * (L * L)) with (IZR b2 * (L * L) / UR) by (field; lra). apply Rdiv_le_l; [exact U|exact B3].
Qed.

(** straight lines *)
Lemma jr_line (X : R -> Prop) L lo hi b1 a b : Rabs b * UR <= IZR b1 * L -> (forall x, X x -> IZR lo <= (a + b * x) * UR <= IZR hi) ->
  jr X L (Jet lo hi b1 0) (fun x => a + b * x).
Proof.
  intros HL HX. exists (fun _ => b), (fun _ => 0). intros x Hx. split; [auto_derive; [trivial|ring]|].
  split; [apply (is_derive_const (V := R_NormedModule))|]. split; [exact (HX x Hx)|]. split; [exact HL|]. rewrite Rabs_R0. lra.
Qed.

Definition least (z : Z) (m : R) : Prop := IZR z <= m * UR.
Lemma jr_s (X : R -> Prop) L z m a b : least z m -> Rabs b <= L -> (forall x, X x -> m <= a + b * x <= 42) -> jr X L (j_s z) (fun x => a + b * x).
Proof.
  intros Hz Hb HX. pose proof UR_pos as U. unfold j_s. apply jr_line.
  - rewrite upU_IZR. apply Rmult_le_compat_r with (r := UR) in Hb; lra.
  - intros x Hx. destruct (HX x Hx) as [H1 H2]. rewrite upU_IZR. unfold least in Hz.
    apply Rmult_le_compat_r with (r := UR) in H1, H2; lra.
Qed.
Lemma jr_t (X : R -> Prop) L a b : Rabs b <= L -> (forall x, X x -> -3 <= a + b * x <= 40) -> jr X L j_t (fun x => a + b * x).
Proof.
  intros Hb HX. pose proof UR_pos as U. unfold j_t. apply jr_line.
  - rewrite upU_IZR. apply Rmult_le_compat_r with (r := UR) in Hb; lra.
  - intros x Hx. destruct (HX x Hx) as [H1 H2]. rewrite !upU_IZR. apply Rmult_le_compat_r with (r := UR) in H1, H2; lra.
Qed.
Lemma jr_p (X : R -> Prop) L zp : / 100 <= L -> 0 <= zp <= 3 / 2 -> (forall x, X x -> 0 <= x * zp <= 10000) -> jr X L j_p (fun x => 0 + zp * x).
Proof.
  intros HL Hz HX. pose proof UR_pos as U. unfold j_p. apply jr_line.
  - rewrite upU_IZR, Rabs_pos_eq by lra. assert (zp <= 150 * L) by lra. apply Rmult_le_compat_r with (r := UR) in H; lra.
  - intros x Hx. destruct (HX x Hx) as [H1 H2]. rewrite !upU_IZR. apply Rmult_le_compat_r with (r := UR) in H1, H2; lra.
Qed.
Lemma least0 : least 0 0. Proof. unfold least. lra. Qed.
Lemma least_n n : least (upU n) (IZR n). Proof. unfold least. rewrite upU_IZR. lra. Qed.
Lemma least_milli : least (UZ / 1000) (/ 1000).
Proof. unfold least. assert (D := Zdiv_R UZ 1000 eq_refl). rewrite <- UR_UZ in D. lra. Qed.

Lemma ck_jm_0 : bends (jmd95_rho_s_t j_dv (j_s (UZ / 1000)) j_t j_p) 376 0 = true. Proof. vm_compute. reflexivity. Qed.
Lemma ck_jm_1 : bends (jmd95_rho_s_t j_dv (j_s (upU 1)) j_t j_p) 57 3 = true. Proof. vm_compute. reflexivity. Qed.
Lemma ck_jm_30 : bends (jmd95_rho_s_t j_dv (j_s (upU 30)) j_t j_p) 36 3 = true. Proof. vm_compute. reflexivity. Qed.
Lemma ck_jf_0 : bends (jmdfwg06_rho_s_t j_dv (j_s (UZ / 1000)) j_t j_p) 290 0 = true. Proof. vm_compute. reflexivity. Qed.
Lemma ck_jf_1 : bends (jmdfwg06_rho_s_t j_dv (j_s (upU 1)) j_t j_p) 72 3 = true. Proof. vm_compute. reflexivity. Qed.
Lemma ck_jf_30 : bends (jmdfwg06_rho_s_t j_dv (j_s (upU 30)) j_t j_p) 53 3 = true. Proof. vm_compute. reflexivity. Qed.
Lemma ck_gs_0 : bends (gsw_specvol_s_t j_dv (j_s 0) j_t j_p) 34 8 = true. Proof. vm_compute. reflexivity. Qed.
Lemma ck_gs_30 : bends (gsw_specvol_s_t j_dv (j_s (upU 30)) j_t j_p) 72 9 = true. Proof. vm_compute. reflexivity. Qed.
