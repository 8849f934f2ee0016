(** * The omega driver in binary64, with named equations of state *)
From Coq Require Import ZArith String Bool Reals Lra Lia List SpecFloat FunctionalExtensionality.
From Flocq Require Import Core.
From Flocq Require BinarySingleNaN.
From Verif Require Import Num XR SF Res Arr ArrLemmas Nd NdLemmas XRlemmas M_graph M_lib M_make_pp M_ppinterp M_eos_base M_eostools M_traj M_bfs M_ntp M_matsolve M_vertsolve M_omega M_surfaces
  S_lib S_eos S_float S_fzero64 S_interp S_domain S_named S_graph S_traj S_vertsolve S_wet S_ntp S_surfaces S_mixed_layer S_matsolve S_vert64 S_entry64 S_ntp64 S_omega S_omega64 S_system64 S_run64
  P_float P_fl P_holds P_eosbound P_eosocean P_eosx P_jmd95 P_jmdfwg06 P_mlnamed P_domain P_vertsolve P_omega P_traj64 P_vert64 P_linear64 P_entry64 P_lost64 P_sum64 P_ntpnorms64 P_ntp64b P_fly64 P_system64b P_surfaces P_surfaces2 P_surfaces3 P_omega64.
Import ListNotations.
Local Open Scope R_scope.
#[local] Existing Instance P_float.prec_pos.
#[local] Existing Instance P_float.prec_max.

(** ** the value that tells density from specific volume *)
Definition gt2 (l : coeffs) (I J K : itv) : bool := (snd (idec 2 0) <? fst (ihorner l I J K))%Z.
Lemma ck_rho0_2 : on_boxes (gt2 jm_rho0_h) bx bt bp = true.
Proof. vm_compute. reflexivity. Qed.
Definition jf2 (I J K : itv) : bool := (snd (imul (idec 2 0) (jfd I J K)) <? fst (ihorner jf_num_h I J K))%Z.
Lemma ck_jf_2 : on_boxes jf2 bx bt bp = true.
Proof. vm_compute. reflexivity. Qed.
Lemma dec_2 : dec 2 0 = 2.
Proof. unfold dec. cbn. ring. Qed.
Lemma jm_gt_2 s t p : ocean s t p -> 2 < jm_rho s t p.
Proof.
  intros H. pose proof (jm_signs _ _ _ H) as (Hk & Hr & _).
  assert (H1 : 2 < jm_rho0 s t).
  { destruct (ocean_box _ _ _ H) as (I & J & K & HI & HJ & HK & HI' & HJ' & HK').
    unfold jm_rho0. rewrite <- (jm_rho0_horner _ _ p), <- dec_2. eapply in_lt; [apply idec_ok|apply (ihorner_ok _ _ _ _ _ _ _ HI' HJ' HK')|].
    boxed ck_rho0_2. }
  destruct H as (_ & _ & Hp). unfold jm_rho.
  assert (Hq : 0 <= p / jm_K s t p < 1).
  { split; [apply Rmult_le_pos; [lra|left; apply Rinv_0_lt_compat; lra]|]. apply (Rmult_lt_reg_r (jm_K s t p)); [lra|].
    unfold Rdiv. rewrite Rmult_assoc, Rinv_l, Rmult_1_r by lra. lra. }
  apply (Rmult_lt_reg_r (1 - p / jm_K s t p)); [lra|]. unfold Rdiv at 2. rewrite Rmult_assoc, Rinv_l by lra. lra.
Qed.
Lemma jf_gt_2 s t p : ocean s t p -> 2 < jf_rho s t p.
Proof.
  intros H. pose proof (jf_signs _ _ _ H) as (Hn & Hd & _).
  assert (H1 : 2 * jf_den s t p < jf_num s t p).
  { destruct (ocean_box _ _ _ H) as (I & J & K & HI & HJ & HK & HI' & HJ' & HK').
    unfold jf_num, jf_den. rewrite <- jf_num_horner, <- jf_den_horner.
    pose proof (fun l => ihorner_ok l _ _ _ _ _ _ HI' HJ' HK') as Hh. rewrite <- dec_2 at 1.
    eapply in_lt; [apply imul_ok; [apply idec_ok|apply iadd_ok; [apply Hh|apply idec_ok]]|apply Hh|]. boxed ck_jf_2. }
  unfold jf_rho. apply (Rmult_lt_reg_r (jf_den s t p)); [lra|]. unfold Rdiv. rewrite Rmult_assoc, Rinv_l by lra. lra.
Qed.

(** ** equations of state by name *)
Lemma at_depth_1 v : at_depth 1 v = v.
Proof. extensionality s. extensionality t. extensionality z. unfold at_depth. rewrite Rmult_1_r. reflexivity. Qed.

Lemma entry_both name v s0 e d B b grav rho_c zp pm vs vt : named_eos name v -> limits64 name s0 e d B -> error_limits64 name s0 e b ->
  coordinate64 grav rho_c zp pm -> partials (seas zp) (at_depth zp v) vs vt ->
  exists f g, _process_eos sdiv (AStr name) grav rho_c true = Ok (F1 f, Some (F2 g))
    /\ make_eos_s_t sdiv (AStr name) grav rho_c = Ok (F2 g)
    /\ named64 f (at_depth zp v) s0 pm e d B
    /\ exists pm', 1000 <= pm' /\ 1000 * zp <= 10000 /\ 0 <= zp /\ named64 f (at_depth zp v) s0 pm' e d B.
Proof.
  intros Hn HL HE Hco Hp. destruct (base_named name v s0 e d B Hn HL) as (f & Hb & Ef).
  destruct (errors64 name v s0 e b grav rho_c zp pm vs vt Hn HE Hco Hp) as (g & Eg & _).
  assert (Et : forall f', _process_eos sdiv (AStr name) grav rho_c false = Ok (F1 f', None) -> _process_eos sdiv (AStr name) grav rho_c true = Ok (F1 f', Some (F2 g))).
  { intros f' E. unfold _process_eos in *. rewrite Eg. cbn [bind]. destruct (make_eos sdiv (AStr name) grav rho_c) as [h|]; [|discriminate E].
    cbn [bind] in *. congruence. }
  unfold coordinate64 in Hco. destruct grav as [gr|]; [destruct rho_c as [r|]|].
  - destruct Hco as (Fg & Fr & Hg & Hr & -> & Hz & Hpm & Hpz). set (fz := mul (mul (lit 1 (-4)) gr) r : f64).
    exists (fun s t z => f s t (mul z fz)), g. split; [exact (Et _ (Ef (Some gr) (Some r)))|]. split; [exact Eg|].
    pose proof (unit64 gr r Fg Fr Hg Hr) as Hu. fold fz in Hu.
    split; [apply depth_64; try assumption|]. exists 1000. split; [lra|]. split; [lra|]. split; [lra|]. apply depth_64; try assumption; lra.
  - destruct Hco as [-> ->]. rewrite at_depth_1. exists f, g. split; [exact (Et f (Ef (Some gr) None))|]. split; [exact Eg|].
    split; [constructor; exact Hb|]. exists 10000. split; [lra|]. split; [lra|]. split; [lra|]. constructor. exact Hb.
  - destruct Hco as [-> ->]. rewrite at_depth_1. exists f, g. split; [exact (Et f (Ef None rho_c))|]. split; [exact Eg|].
    split; [constructor; exact Hb|]. exists 10000. split; [lra|]. split; [lra|]. split; [lra|]. constructor. exact Hb.
Qed.

Lemma within_exact (x : f64) v e : finite64 x -> fval x = v -> 0 <= e -> S_float.within x v e.
Proof. intros F E He. split; [exact F|]. rewrite E, Rminus_diag_eq by reflexivity. rewrite Rabs_R0. exact He. Qed.

Lemma lit_345 : finite64 (lit 345 (-1) : f64) /\ fval (lit 345 (-1) : f64) = 69 / 2.
Proof. const64 4855443348258816%positive (-47)%Z. Qed.
Lemma lit_3 : finite64 (lit 3 0 : f64) /\ fval (lit 3 0 : f64) = 3.
Proof. const64 6755399441055744%positive (-51)%Z. Qed.
Lemma lit_1000 : finite64 (lit 1000 0 : f64) /\ fval (lit 1000 0 : f64) = 1000.
Proof. const64 8796093022208000%positive (-43)%Z. Qed.

Lemma sample64 name v s0 e d B f zp pm o : named_eos name v -> limits64 name s0 e d B -> 1000 <= pm -> 1000 * zp <= 10000 -> 0 <= zp ->
  0 <= e -> named64 f (at_depth zp v) s0 pm e d B ->
  exists v0, f (lit 345 (-1)) (lit 3 0) (lit 1000 0) = Ok v0 /\ P_omega.tolerance o v0 = tolerance64 name o.
Proof.
  intros Hn HL Hpm Hz Hz0 He Hf. destruct (named64_ok _ _ _ _ _ _ _ Hf) as (d0 & _ & H1 & H2 & H3 & _ & _ & _ & H6 & _).
  destruct lit_345 as [Fs Es]. destruct lit_3 as [Ft Et]. destruct lit_1000 as [Fp Ep].
  destruct (H1 (lit 345 (-1)) (lit 3 0) (lit 1000 0) (69 / 2) 3 1000) as (HB & y & Ey & [Fy Hy]).
  { cbn [sea box dS]. unfold upto. destruct HL; lra. } { cbn [sea box dT]. unfold upto. lra. } { cbn [sea box dP]. unfold upto. lra. }
  { apply within_exact; assumption. } { apply within_exact; assumption. } { apply within_exact; [assumption|assumption|]. unfold dec. simpl. lra. }
  exists y. split; [exact Ey|]. unfold P_omega.tolerance, tolerance64. destruct fl_one as [F1 E1].
  assert (Ho : ocean (69 / 2) 3 (1000 * zp)) by (unfold ocean; split; [lra|]; split; [lra|]; split; [apply Rmult_le_pos; lra|lra]).
  assert (E : ltb y (lit 1 0 : f64) = String.eqb name "gsw").
  { etransitivity; [exact (ltb_val y (lit 1 0 : f64) Fy F1)|]. rewrite E1. unfold at_depth in HB, Hy. apply Rabs_le_inv in Hy.
    destruct Hn; cbn [String.eqb Ascii.eqb Bool.eqb].
    - inversion HL; subst. apply Raux.Rlt_bool_true. apply Rabs_le_inv in HB. assert (dec 15 (-4) = 15 / 10000) by (unfold dec; simpl; lra). lra.
    - apply Raux.Rlt_bool_false. pose proof (jm_gt_2 _ _ _ Ho). lra.
    - apply Raux.Rlt_bool_false. pose proof (jf_gt_2 _ _ _ Ho). lra. }
  rewrite E. reflexivity.
Qed.

(** ** the run *)
Lemma omega_named64 interp ppc rel e : scheme64 interp ppc rel e ->
  forall name v s0 d B b grav rho_c zp pm vs vt, named_eos name v -> limits64 name s0 e d B -> error_limits64 name s0 e b -> coordinate64 grav rho_c zp pm ->
  partials (seas zp) (at_depth zp v) vs vt ->
  exists f g itp, _process_eos sdiv (AStr name) grav rho_c true = Ok (F1 f, Some (F2 g)) /\ make_pp interp "u" "interp" true 2 = Ok itp
  /\ forall spsolve lsqr, solvers64 spsolve lsqr ->
  forall o sm, finite64 (TOL_P_SOLVER o) -> tolerance_ok (fval (TOL_P_SOLVER o)) -> s0 <= sm -> 0 < sm ->
  spells "poisson" (OMEGA_FORMULATION o) \/ spells "gradient" (OMEGA_FORMULATION o) -> (o_diags o = true -> (0 < ITER_MAX o)%Z) ->
  forall fuel casts casts', Forall2 holds_column casts casts' -> Forall (column_ok64 s0 pm fuel (fval (TOL_P_SOLVER o))) casts' ->
  Forall same_extent casts' -> Forall (cast_in (sea sm (pm - 1))) casts' ->
  forall edges g_dist g_perp ds ws, edges64 (length casts) edges g_dist g_perp ds ws ->
  forall loop_fuel junk0 junk junk_p junk_i, (length casts < loop_fuel)%nat -> (forall k, (length casts <= length (junk k))%nat) ->
  (length casts < length junk_p)%nat -> (2 * length edges <= length junk_i)%nat ->
  forall surf_shape pin pin_p p_init p_ml, finite64 pin_p -> in_cast casts' pin (fval pin_p) -> starts_at64 surf_shape (length casts) pin pin_p p_init ->
  below_mixed_layer64 (length casts) pin pin_p p_ml ->
  exists x dd its,
    omega_surf f g (ppc junk0) (interp_two_named itp) spsolve lsqr fuel loop_fuel junk junk_p junk_i surf_shape casts
      (Some edges) (Some g_dist) (Some g_perp) pin o p_init p_ml = Ok (x, dd, its)
    /\ ran64 rel (at_depth zp v) vs vt name e (2 * d) b pm casts' edges ds ws pin pin_p p_init p_ml o spsolve lsqr x dd its.
Proof.
  intros Hsch name v s0 d B b grav rho_c zp pm vs vt Hn HL HE Hco Hp.
  destruct (entry_both name v s0 e d B b grav rho_c zp pm vs vt Hn HL HE Hco Hp) as (f & g & Ep & Eg & Hf & pm' & P1 & P2 & P3 & Hf').
  destruct (scheme_fly64 interp ppc rel e Hsch) as (itp & Ei & Hfly).
  destruct (errors64 name v s0 e b grav rho_c zp pm vs vt Hn HE Hco Hp) as (g' & Eg' & Herr). rewrite Eg in Eg'. injection Eg' as <-.
  destruct (systems64 name v s0 e b grav rho_c zp pm vs vt Hn HE Hco Hp) as (g' & Eg' & Hsys). rewrite Eg in Eg'. injection Eg' as <-.
  exists f, g, itp. split; [exact Ep|]. split; [exact Ei|].
  intros spsolve lsqr Hsolv o sm Ftol Htol Hsm Hsm0 Hform Hmax fuel casts casts' Hh Hcols Hext Hroom edges g_dist g_perp ds ws (Hed & Hne & HN & Hd & Hw & Md & Mw)
    loop_fuel junk0 junk junk_p junk_i Hlf Hjunk Hjp Hji surf_shape pin pin_p p_init p_ml Fpp Hin Hst Hbelow.
  destruct (named64_room _ _ _ _ _ _ _ Hf) as (dd & Her).
  destruct (csr_lists edges (length casts) junk_p junk_i Hed Hjp Hji) as (ip & ix & Ec & Hcsr & Hadj & Hlst & Hlen).
  assert (HN40 : INR (length edges) <= powerRZ 2 40) by (eapply Rle_trans; [exact HN|apply pow2_le; lia]).
  assert (Hdeg : forall m, INR (length (listed ip ix m)) <= powerRZ 2 32).
  { intros m. pose proof (le_INR _ _ (Hlen m)) as H. rewrite mult_INR in H. replace (INR 2) with 2 in H by (cbn; lra).
    replace (powerRZ 2 32) with (2 * powerRZ 2 31) by (simpl; lra). lra. }
  assert (Hlen0 : length edges <> 0%nat) by (destruct edges; [congruence|discriminate]).
  assert (Hdr : exists dr0, gdiv g_perp g_dist = Ok dr0).
  { destruct (distances64_exp _ _ _ Hd) as (D & GD & FD). destruct (distances64_exp _ _ _ Hw) as (W & GW & FW).
    destruct (gexp_div _ _ _ _ _ GW GD Hlen0) as (gr & Egr & _); [|exists gr; exact Egr].
    clear - FD Md. revert Md. induction FD as [|x r D ds [F E] FD IH]; intros Md; [constructor|]. inversion Md as [|? ? [M1 M2] Md']; subst.
    constructor; [|apply IH; exact Md']. change (zero : f64) with (lit 0 0 : f64). rewrite (area_denom x F). apply Raux.Req_bool_false.
    pose proof (pow2_pos (-100)). lra. }
  destruct Hdr as (dr0 & Edr).
  assert (Hpin : (pin < length casts)%nat).
  { destruct Hin as (S' & T' & P' & k & K & ss & ts & ps & E & _). rewrite (P_wet64.forall2_len _ _ _ Hh). exact (nth_error_lt _ _ _ E). }
  assert (Hpp : 0 <= fval pin_p <= pm).
  { destruct Hin as (S' & T' & P' & k & K & ss & ts & ps & E & HC & Hl & Hr).
    pose proof (proj1 (Forall_forall _ _) Hroom _ (nth_error_In _ _ E)) as Hc. pose proof (cast_blk _ _ _ _ _ _ _ _ HC) as HB. pose proof (blk_K _ _ _ _ _ _ HB) as HK.
    assert (D1 := Hc _ _ _ _ _ HC k ltac:(lia)). assert (D2 := Hc _ _ _ _ _ HC (K - 1)%nat ltac:(lia)).
    cbn [sea box dS dT dP] in D1, D2. unfold upto in D1, D2. lra. }
  destruct (sample64 name v s0 e d B f zp pm' o Hn HL P1 P2 P3 (scheme_pos _ _ _ _ Hsch) Hf') as (v0 & Ev0 & Etol).
  set (ml := ml_of casts p_ml).
  assert (Hml : length ml = length casts /\ forall m, nth_error ml pin = Some m -> ltb pin_p m = false).
  { unfold ml, ml_of. destruct p_ml as [l|]; [exact Hbelow|]. split; [apply repeat_length|]. intros m Hm. apply nth_error_In, repeat_spec in Hm. subst m.
    destruct pin_p as [s|s| |s m k]; [reflexivity|destruct Fpp|destruct Fpp|reflexivity]. }
  destruct Hml as [Lml Hml].
  assert (Hfo : exists fo, asked o fo) by (destruct Hform as [H|H]; [exists FPoisson|exists FGradient]; exact H).
  destruct Hfo as [fo Hfo].
  assert (Hed' : forall stp : list bottle64, length stp = length casts -> Forall (fun e => (fst e < length stp)%nat /\ (snd e < length stp)%nat) edges).
  { intros stp L. apply Forall_forall. intros [a c] Hac. rewrite L. exact (Hed a c Hac). }
  destruct (drive f (at_depth zp v) s0 pm e d B dd Her (ppc junk0) rel (scheme_sea _ _ _ _ junk0 Hsch) (scheme_keeps _ _ _ _ junk0 Hsch) (interp_two_named itp) Hfly
    g vs vt b spsolve lsqr Hsolv fuel loop_fuel junk surf_shape casts casts' edges g_dist g_perp ds ws pin o Ftol Htol Hh Hcols Hext sm Hsm Hsm0 Hroom Hlf Hjunk Hpin
    ip ix Hcsr Hadj Hlst Hdeg fo (match fo with FPoisson => dr0 | FGradient => geom_sqrt dr0 end)) with
    (pin_p := pin_p) (ml := ml) (junk_p := junk_p) (junk_i := junk_i) (p_init := p_init) (p_ml := p_ml) (dr0 := dr0) (v0 := v0)
    as (x & q & its & x0 & E & Hnone & Hi & Hr & Hs & Hpn & Hstep & Hdesc & Hnorm); try assumption; try reflexivity.
  - intros stp w m Hnd Hpm L Hb. destruct (Hsys stp w edges m pin g_dist g_perp ds ws dr0 Hnd Hpm Hb (Hed' stp L) Hne HN40 Hd Hw Md Mw Edr) as (S1 & S2 & S3).
    rewrite L in S1, S2, S3. destruct (Nat.le_gt_cases (length m) 1) as [Hm|Hm].
    + destruct (S1 Hm) as (phi & Hph & E1 & E2). exists phi. split; [destruct fo; [exact (E1 spsolve)|exact (E2 lsqr)]|].
      split; [intros _; exact Hph|]. intros H. lia.
    + destruct fo.
      * destruct (S2 Hm) as (A & r & HA & Hphi). destruct (Hphi spsolve (proj1 (proj1 Hsolv _ A r))) as (phi & E1 & E2).
        exists phi. split; [exact E1|]. split; [intros H; lia|]. intros _. exists A, r. split; [exact HA|exact E2].
      * destruct (S3 Hm) as (A & r & HA & Hphi). destruct (In_nth_error _ _ Hpm) as [k0 Hk0].
        set (l := S_system64.inner m edges (weights ds ws)) in *.
        destruct (proj2 Hsolv (S (length l)) (length m) A r) as [Ls _].
        destruct (nth_error (lsqr (S (length l)) (length m) A r) k0) as [s|] eqn:Es.
        2:{ apply nth_error_None in Es. apply nth_error_lt in Hk0. lia. }
        destruct (Hphi lsqr k0 s Ls Hk0 Es) as (phi & E1 & E2).
        exists phi. split; [exact E1|]. split; [intros H; lia|]. intros _. exists A, r, k0, s. split; [exact HA|]. split; [exact Hk0|]. split; [exact Es|exact E2].
  - intros y w L Hb. destruct (Herr y w edges Hb (Hed' y L)) as (_ & _ & H3). exact (H3 fsum g_dist g_perp ds ws fsum_summed HN40 Hd Hw Md Mw).
  - exists x, q, its. split; [exact E|]. constructor.
    + exact Hs.
    + exact Hpn.
    + exact Hstep.
    + exact Hnone.
    + exists x0. split; [exact Hi|]. split.
      * rewrite Etol in Hr. unfold ml, ml_of in Hr. unfold mixed64. rewrite <- (P_wet64.forall2_len _ _ _ Hh). exact Hr.
      * intros q' Eq. exists (fun y => ntp_epsilon_errors_norms g y (GDict (Some edges) (Some g_dist) (Some g_perp))). split; [exact (Hdesc q' Eq)|exact Hnorm].
Qed.

(** ** the entry point *)
Lemma forall2_map {A B C} (P : B -> C -> Prop) (f : A -> B) (g : A -> C) l : (forall x, In x l -> P (f x) (g x)) -> Forall2 P (map f l) (map g l).
Proof. induction l as [|a l IH]; intros H; cbn [map]; constructor; [apply H; left; reflexivity|]. apply IH. intros x Hx. apply H. right. exact Hx. Qed.
Lemma forall_map_in {A B} (P : B -> Prop) (f : A -> B) l : (forall x, In x l -> P (f x)) -> Forall P (map f l).
Proof. intros H. apply Forall_forall. intros y Hy. apply in_map_iff in Hy. destruct Hy as (x & <- & Hx). exact (H x Hx). Qed.

Lemma omega_entry64 interp ppc rel e : scheme64 interp ppc rel e ->
  forall name v s0 d B b grav rho_c zp pm vs vt, named_eos name v -> limits64 name s0 e d B -> error_limits64 name s0 e b -> coordinate64 grav rho_c zp pm ->
  partials (seas zp) (at_depth zp v) vs vt ->
  forall spsolve lsqr, solvers64 spsolve lsqr ->
  forall o sm, finite64 (TOL_P_SOLVER o) -> tolerance_ok (fval (TOL_P_SOLVER o)) -> s0 <= sm -> 0 < sm ->
  spells "poisson" (OMEGA_FORMULATION o) \/ spells "gradient" (OMEGA_FORMULATION o) -> (o_diags o = true -> (0 < ITER_MAX o)%Z) ->
  forall fuel S T P vd s1 n s2 c c', water_columns S T P vd s1 n s2 c -> s1 ++ s2 <> [] ->
  (forall h, valid (s1 ++ s2) h -> holds_column (c h) (c' h) /\ column_ok64 s0 pm fuel (fval (TOL_P_SOLVER o)) (c' h)
     /\ same_extent (c' h) /\ cast_in (sea sm (pm - 1)) (c' h)) ->
  let sh := s1 ++ s2 in
  forall edges g_dist g_perp ds ws, edges64 (prod sh) edges g_dist g_perp ds ws ->
  forall loop_fuel junk0 junk junk_p junk_i, (prod sh < loop_fuel)%nat -> (forall k, (prod sh <= length (junk k))%nat) ->
  (prod sh < length junk_p)%nat -> (2 * length edges <= length junk_i)%nat ->
  forall index pin h0 pin_p p_init p_ml ml, valid sh h0 -> pin_omega64 pin h0 -> finite64 pin_p -> in_cast (map c' (all_idx sh)) (ravel sh h0) (fval pin_p) ->
  starts_at64 sh (prod sh) (ravel sh h0) pin_p (flat_init p_init) ->
  mixed_arg S T P vd name grav rho_c p_ml ml -> below_mixed_layer64 (prod sh) (ravel sh h0) pin_p ml ->
  exists s t p x dd its,
    omega_surf_pub spsolve lsqr junk0 fuel loop_fuel junk junk_p junk_i S T P (GDict (Some edges) (Some g_dist) (Some g_perp)) pin p_init index
      (mkOmega vd p_ml (AStr name) rho_c grav interp o) = Ok (s, t, p, dd, its)
    /\ S_surfaces.holds S T s1 s2 s t p (at_pos sh x)
    /\ ran64 rel (at_depth zp v) vs vt name e (2 * d) b pm (map c' (all_idx sh)) edges ds ws (ravel sh h0) pin_p (flat_init p_init) ml o spsolve lsqr x dd its.
Proof.
  intros Hsch name v s0 d B b grav rho_c zp pm vs vt Hn HL HE Hco Hp spsolve lsqr Hsolv o sm Ftol Htol Hsm Hsm0 Hform Hmax fuel S T P vd s1 n s2 c c' Hw Hsh Hcol sh
    edges g_dist g_perp ds ws Hed loop_fuel junk0 junk junk_p junk_i Hlf Hjunk Hjp Hji index pin h0 pin_p p_init p_ml ml Hh0 Hpin Fpp Hin Hst Hml Hbelow.
  destruct (omega_named64 interp ppc rel e Hsch name v s0 d B b grav rho_c zp pm vs vt Hn HL HE Hco Hp) as (f & g & itp & Ee & Ei & H).
  assert (Lc : length (map c (all_idx sh)) = prod sh) by (rewrite map_length; apply length_all_idx).
  assert (Hc : forall h, In h (all_idx sh) -> holds_column (c h) (c' h) /\ column_ok64 s0 pm fuel (fval (TOL_P_SOLVER o)) (c' h)
     /\ same_extent (c' h) /\ cast_in (sea sm (pm - 1)) (c' h)) by (intros h Hh; apply Hcol, in_all_idx, Hh).
  destruct (H spsolve lsqr Hsolv o sm Ftol Htol Hsm Hsm0 Hform Hmax fuel (map c (all_idx sh)) (map c' (all_idx sh))) with
    (edges := edges) (g_dist := g_dist) (g_perp := g_perp) (ds := ds) (ws := ws) (loop_fuel := loop_fuel) (junk0 := junk0) (junk := junk) (junk_p := junk_p) (junk_i := junk_i)
    (surf_shape := sh) (pin := ravel sh h0) (pin_p := pin_p) (p_init := flat_init p_init) (p_ml := ml) as (x & dd & its & E & Hran); rewrite ?Lc; try assumption.
  { apply forall2_map. intros h Hh. apply (Hc h Hh). }
  { apply forall_map_in. intros h Hh. apply (Hc h Hh). }
  { apply forall_map_in. intros h Hh. apply (Hc h Hh). }
  { apply forall_map_in. intros h Hh. apply (Hc h Hh). }
  assert (Lx : length x = prod sh).
  { pose proof (proj1 (r64_surface _ _ _ _ _ _ _ _ _ _ _ _ _ _ _ _ _ _ _ _ _ _ _ Hran)) as L. rewrite map_length, length_all_idx in L. exact L. }
  pose proof Hw as Hw'. destruct Hw' as [[WS SS] [WT ST] Hn0 [HvS HvT] _ _].
  destruct (P_surfaces.outputs S T vd s1 n s2 x SS ST Hn0 (proj1 HvS) HvT Lx) as (sx & tx & Exr & s & t & p & Os & Ot & Op & Hholds).
  exists s, t, p, x, dd, its. split; [|split; [exact Hholds|exact Hran]].
  destruct (P_surfaces.columns_ok S T P vd s1 n s2 c Hw) as (stp & Estp & Ecol).
  assert (Hmk : exists nm, make_pp interp "1" "coeffs" false 1 = Ok nm /\ ppc_named junk0 nm = ppc junk0).
  { destruct Hsch; [exists "linear_coeffs_1"%string|exists "pchip_coeffs_1_nonan"%string]; split; reflexivity. }
  destruct Hmk as (nm & Em & Epp).
  assert (Epin : exists pt, pin_of pin S index = Ok pt /\ (pt = CTuple (map Z.of_nat h0) \/ pt = CList (map Z.of_nat h0))).
  { destruct Hpin as [->|[->|(z & Ez & ->)]]; [eexists; split; [reflexivity|right; reflexivity]|eexists; split; [reflexivity|left; reflexivity]|].
    eexists. split; [reflexivity|]. rewrite Ez. left. reflexivity. }
  destruct Epin as (pt & Epin & Hpt).
  assert (Edr : exists dr0, gdiv g_perp g_dist = Ok dr0).
  { unfold omega_surf in E. cbn [key bind] in E. destruct (gdiv g_perp g_dist) as [dr0|]; [exists dr0; reflexivity|discriminate E]. }
  destruct Edr as [dr0 Edr].
  assert (Hrun : forall q, q = MNone /\ ml = None \/ (exists a, q = MArray a /\ ml = Some (elems a)) ->
    omega_surf_pub spsolve lsqr junk0 fuel loop_fuel junk junk_p junk_i S T P (GDict (Some edges) (Some g_dist) (Some g_perp)) pin p_init index
      (mkOmega vd q (AStr name) rho_c grav interp o) = Ok (s, t, p, dd, its)).
  { intros q Hq. unfold omega_surf_pub. cbn [w_interp w_vert_dim w_p_ml w_eos w_rho_c w_grav w_options].
    rewrite Em, Ei. cbn [bind]. rewrite Exr. cbn [bind]. rewrite Epin. cbn [bind]. rewrite Estp. cbn [bind].
    rewrite Ee. cbn [bind]. rewrite Ecol. cbn [bind shape elems build fst snd]. fold sh.
    assert (Emt : match sh with [] => Err TypeError | _ :: _ => Ok tt end = Ok tt) by (unfold sh in *; destruct (s1 ++ s2); [congruence|reflexivity]).
    rewrite Emt. cbn [bind].
    assert (Er : match pt with CTuple t0 | CList t0 => ravel_multi_index t0 sh | CNone => Err TypeError end = Ok (ravel sh h0)).
    { destruct Hpt as [-> | ->]; apply P_surfaces2.ravel_multi; exact Hh0. }
    rewrite Er. cbn [bind key]. rewrite Edr. cbn [bind]. rewrite Epp.
    change (one_value (F1 f)) with f. change (two_values (Some (F2 g))) with g. fold (flat_init p_init).
    destruct Hq as [[-> ->]|(a & -> & ->)]; cbn [bind]; rewrite E; cbn [bind]; fold sh in Os, Ot, Op; rewrite Os, Ot, Op; reflexivity. }
  destruct Hml as [|a|d0 r0 b0 i0 v0 d1 r1 b1 i1 a Kd Kr Kb Ki Kv Ea].
  - apply Hrun. left. split; reflexivity.
  - apply Hrun. right. exists a. split; reflexivity.
  - rewrite (P_surfaces3.omega_mixed_layer spsolve lsqr junk0 fuel loop_fuel junk junk_p junk_i S T P vd s1 n s2 c
      (GDict (Some edges) (Some g_dist) (Some g_perp)) pin p_init index name rho_c grav interp o d0 r0 b0 i0 v0 d1 r1 b1 i1 a Kd Kr Kb Ki Kv Hw Ea).
    apply Hrun. right. exists a. split; reflexivity.
Qed.
