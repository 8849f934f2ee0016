(** * The named equations of state, with or without the Boussinesq approximation *)
From Coq Require Import String ZArith Reals Lra Lia List.
From Verif Require Import Num XR Res M_eos_base M_jmd95 M_jmdfwg06 M_gsw M_eostools S_eos S_interp S_traj S_mixed_layer S_named
  P_eos P_jmd95 P_jmdfwg06 P_gsw P_gsw2 P_gsw3 P_eosx P_eosbound P_eosocean XRlemmas.
Import ListNotations.
Local Open Scope R_scope.

(** ** NaN *)
Lemma add_nan_l x : add NaN x = NaN. Proof. reflexivity. Qed.
Lemma add_nan_r x : add x NaN = NaN. Proof. destruct x; reflexivity. Qed.
Lemma mul_nan_l x : mul NaN x = NaN. Proof. reflexivity. Qed.
Lemma mul_nan_r x : mul x NaN = NaN. Proof. destruct x; reflexivity. Qed.
Lemma sub_nan_l x : sub NaN x = NaN. Proof. reflexivity. Qed.
Lemma sub_nan_r x : sub x NaN = NaN. Proof. destruct x; reflexivity. Qed.
Lemma sqrt_nan : fsqrt NaN = NaN. Proof. reflexivity. Qed.
Lemma sdiv_nan_l x y : sdiv NaN x = Ok y -> y = NaN.
Proof. unfold sdiv. destruct (eqb x zero); [discriminate|]. intros [= <-]. reflexivity. Qed.
Lemma sdiv_nan_r x : sdiv x NaN = Ok NaN. Proof. destruct x; reflexivity. Qed.

Ltac nan := repeat first [rewrite add_nan_l|rewrite add_nan_r|rewrite mul_nan_l|rewrite mul_nan_r|rewrite sub_nan_l|rewrite sub_nan_r
  |rewrite sqrt_nan|rewrite sdiv_nan_r; cbn [bind]].

Lemma jmd95_nan s t p : missing (s, t, p) -> jmd95_rho sdiv s t p = Ok NaN.
Proof.
  unfold missing. intros [-> | [-> | ->]]; unfold jmd95_rho; nan; reflexivity.
Qed.
Lemma jmdfwg06_nan s t p : missing (s, t, p) -> jmdfwg06_rho sdiv s t p = Ok NaN.
Proof.
  unfold missing. intros [-> | [-> | ->]]; unfold jmdfwg06_rho; nan; try reflexivity.
Qed.
Lemma gsw_nan' s t p : missing (s, t, p) -> gsw_specvol s t p = Ok NaN.
Proof.
  unfold missing, gsw_specvol, gsw__process. intros [-> | [-> | ->]].
  - change (npmaximum NaN (lit 0 0)) with NaN. nan. unfold bind, gsw__specvol. nan. reflexivity.
  - nan. cbn [bind]. unfold gsw__specvol. nan. reflexivity.
  - nan. cbn [bind]. unfold gsw__specvol. nan. reflexivity.
Qed.

Lemma jmd95_s_t_nan : nan_safe (jmd95_rho_s_t sdiv).
Proof.
  intros s t p. unfold missing. intros [-> | [-> | ->]]; eexists; unfold jmd95_rho_s_t; nan; reflexivity.
Qed.
Lemma jmdfwg06_s_t_nan : nan_safe (jmdfwg06_rho_s_t sdiv).
Proof.
  intros s t p. unfold missing. intros [-> | [-> | ->]]; eexists; unfold jmdfwg06_rho_s_t; nan; reflexivity.
Qed.
Lemma x_nonzero s : eqb (fsqrt (add (mul sfac (npmaximum s (lit 0 0))) offset)) (@zero xr _) = false.
Proof.
  assert (Hf : forall r, eqb (fsqrt (add (mul sfac (npmaximum (Fin r) (lit 0 0))) offset)) (@zero xr _) = false).
  { intros r. pose proof (process_x r 0 0) as H. unfold gsw__process in H.
    assert (E0 : fsqrt (add (mul sfac (npmaximum (Fin r) (lit 0 0))) offset) = Fin (teos_x (Rmax r 0))) by congruence. rewrite E0.
    unfold zero. cbn [eqb lit xrNum xr_eqb]. unfold Reqb. rewrite lit_0. destruct (Req_EM_T _ _) as [E|E]; [|reflexivity].
    exfalso. exact (x_ne r E). }
  destruct s as [r| | |].
  - apply Hf.
  - change (npmaximum PInf (lit 0 0)) with PInf. cbn [mul add sfac offset lit xrNum]. unfold xr_mul, Rsgn_inf.
    assert (H : 0 < Rlit 248826675584615 (-16)) by (unfold Rlit; simpl; lra).
    destruct (Rlt_dec 0 (Rlit 248826675584615 (-16))) as [_|N]; [|lra]. reflexivity.
  - replace (npmaximum NInf (lit 0 0)) with (npmaximum (Fin (-1)) (@lit xr _ 0 0)); [apply Hf|].
    unfold npmaximum. cbn [isnan ltb lit xrNum xr_isnan xr_ltb]. unfold Rltb. rewrite lit_0. destruct (Rlt_dec (-1) 0); [reflexivity|lra].
  - reflexivity.
Qed.
Lemma gsw_s_t_nan : nan_safe (gsw_specvol_s_t sdiv).
Proof.
  intros s t p _. unfold gsw_specvol_s_t, gsw__process. cbn [bind].
  set (x := fsqrt _). set (y := mul t tfac). set (z := mul p pfac).
  unfold gsw__s.
  assert (E : forall a, sdiv a x = Ok (div a x)) by (intros a; unfold sdiv, x; rewrite x_nonzero; reflexivity).
  rewrite E. cbn [bind]. unfold gsw__t. cbn [bind]. eexists. reflexivity.
Qed.

(** ** Values *)
Lemma bind_sdiv {A B} (g : A -> B) a b k k' : (forall v, k (Fin v) = rmap g (k' v)) ->
  bind (sdiv (Fin a) (Fin b)) k = rmap g (bind (sdiv a b) k').
Proof. intros H. rewrite P_eosx.sdiv_fin. destruct (sdiv a b); [apply H|reflexivity]. Qed.
Ltac bind_sdiv := match goal with |- bind (sdiv ?a ?b) ?k = rmap f2 (bind (sdiv ?c ?d) ?k') =>
    change (bind (sdiv (Fin c) (Fin d)) k = rmap f2 (bind (sdiv c d) k')) end; apply bind_sdiv; intro.
Lemma jmd95_s_t_x s t p : 0 <= s -> jmd95_rho_s_t sdiv (Fin s) (Fin t) (Fin p) = rmap f2 (jmd95_rho_s_t sdiv s t p).
Proof.
  intros Hs. unfold jmd95_rho_s_t. rewrite sqrt_fin by exact Hs. cbn [fsqrt RNum].
  do 4 bind_sdiv. reflexivity.
Qed.
Lemma jmdfwg06_s_t_x s t p : 0 <= s -> jmdfwg06_rho_s_t sdiv (Fin s) (Fin t) (Fin p) = rmap f2 (jmdfwg06_rho_s_t sdiv s t p).
Proof.
  intros Hs. unfold jmdfwg06_rho_s_t. rewrite sqrt_fin by exact Hs. cbn [fsqrt RNum].
  bind_sdiv. reflexivity.
Qed.

(** defined at zero salinity too *)
Lemma jmd95_s_t_ok s t p : jm_dom s t p -> exists rs rt, jmd95_rho_s_t sdiv s t p = Ok (rs, rt).
Proof.
  intros (Hs' & H0 & Hp). assert (HKp : jm_K s t p - p <> 0) by lra.
  unfold jmd95_rho_s_t, eosJMDCKFw0, eosJMDCKFw1, eosJMDCKFw2, eosJMDCKFw3, eosJMDCKFw4,
      eosJMDCKSw0, eosJMDCKSw1, eosJMDCKSw2, eosJMDCKSw3, eosJMDCKSw4, eosJMDCKSw5, eosJMDCKSw6,
      eosJMDCKP0, eosJMDCKP1, eosJMDCKP2, eosJMDCKP3, eosJMDCKP4, eosJMDCKP5, eosJMDCKP6,
      eosJMDCKP7, eosJMDCKP8, eosJMDCKP9, eosJMDCKP10, eosJMDCKP11, eosJMDCKP12, eosJMDCKP13,
      eosJMDCFw0, eosJMDCFw1, eosJMDCFw2, eosJMDCFw3, eosJMDCFw4, eosJMDCFw5,
      eosJMDCSw0, eosJMDCSw1, eosJMDCSw2, eosJMDCSw3, eosJMDCSw4, eosJMDCSw5, eosJMDCSw6,
      eosJMDCSw7, eosJMDCSw8. ru.
  match goal with |- context [sdiv ?a (?K - p)] =>
    assert (HK : K = jm_K s t p); [|rewrite HK; clear HK] end.
  { unfold jm_K, jm_K_terms. destruct (sqrt_var s Hs') as (q & -> & -> & _). horner. ring. }
  repeat (rewrite sdiv_ok by exact HKp; cbn [bind]). do 2 eexists. reflexivity.
Qed.
Lemma jmdfwg06_s_t_ok s t p : jf_dom s t p -> exists rs rt, jmdfwg06_rho_s_t sdiv s t p = Ok (rs, rt).
Proof.
  intros (Hs' & Hd). unfold jmdfwg06_rho_s_t.
  unfold jf_a0, jf_a1, jf_a2, jf_a3, jf_a4, jf_a5, jf_a6, jf_a7, jf_a8, jf_a9, jf_a10, jf_a11,
      jf_b0, jf_b1, jf_b2, jf_b3, jf_b4, jf_b5, jf_b6, jf_b7, jf_b8, jf_b9, jf_b10, jf_b11,
      jf_b12, jf_epsln; ru.
  match goal with |- context [sdiv ?a ?b] => assert (Hb : b = jf_den s t p) end.
  { unfold jf_den, jf_den_terms. destruct (sqrt_var _ Hs') as (q & -> & -> & _); horner; rewrite ?dec_1; ring. }
  rewrite Hb, sdiv_ok by exact Hd. cbn [bind]. do 2 eexists. reflexivity.
Qed.

(** the value of a computation of two numbers *)
Definition val1 (r : res (R * R)) : R := match r with Ok w => fst w | Err _ => 0 end.
Definition val2 (r : res (R * R)) : R := match r with Ok w => snd w | Err _ => 0 end.

(** ** Continuity *)
Lemma cont_pow f n x : continuity_pt f x -> continuity_pt (fun x => f x ^ n) x.
Proof.
  intros H. induction n as [|n IH]; cbn [pow].
  - apply continuity_pt_const. intros ? ?. reflexivity.
  - apply (continuity_pt_mult f (fun x => f x ^ n)); assumption.
Qed.
Lemma cont_poly l f g h x : continuity_pt f x -> continuity_pt g x -> continuity_pt h x ->
  continuity_pt (fun x => poly l (f x) (g x) (h x)) x.
Proof.
  intros Hf Hg Hh. induction l as [|(c & (i & j) & k) l IH].
  - apply continuity_pt_const. intros ? ?. reflexivity.
  - unfold poly. cbn [fold_right]. fold (poly l).
    apply (continuity_pt_plus (fun x => c * f x ^ i * g x ^ j * h x ^ k) (fun x => poly l (f x) (g x) (h x))); [|exact IH].
    apply (continuity_pt_mult (fun x => c * f x ^ i * g x ^ j) (fun x => h x ^ k)); [|apply cont_pow; exact Hh].
    apply (continuity_pt_mult (fun x => c * f x ^ i) (fun x => g x ^ j)); [|apply cont_pow; exact Hg].
    apply (continuity_pt_mult (fun x => c) (fun x => f x ^ i)); [|apply cont_pow; exact Hf].
    apply continuity_pt_const. intros ? ?. reflexivity.
Qed.
Lemma cont_sqrt f x : continuity_pt f x -> continuity_pt (fun x => sqrt (f x)) x.
Proof.
  intros H. apply (continuity_pt_comp f sqrt); [exact H|].
  destruct (Rle_dec 0 (f x)) as [Hf|Hf]; [apply continuity_pt_sqrt; exact Hf|].
  apply Rnot_le_lt in Hf.
  intros e He. exists (- f x). split; [lra|]. intros y (_ & Hy). cbn in Hy. unfold R_dist in *. cbn. unfold R_dist.
  apply Rabs_def2 in Hy. rewrite !sqrt_neg_0 by lra. unfold Rminus; rewrite Rplus_opp_r, Rabs_R0. exact He.
Qed.
Lemma cont_const (c x : R) : continuity_pt (fun _ => c) x.
Proof. apply continuity_pt_const. intros ? ?. reflexivity. Qed.

Section Continuity.
  Variables (a b c : R -> R) (x zp : R).
  Hypotheses (Ha : continuity_pt a x) (Hb : continuity_pt b x) (Hc : continuity_pt c x).
  Let cz : continuity_pt (fun x => c x * zp) x := continuity_pt_mult c (fun _ => zp) x Hc (cont_const zp x).

  Lemma teos_cont : continuity_pt (fun x => teos_v (a x) (b x) (c x * zp)) x.
  Proof.
    unfold teos_v. apply cont_poly.
    - unfold teos_x. apply cont_sqrt.
      apply (continuity_pt_plus (fun x => dec 248826675584615 (-16) * Rmax (a x) 0) (fun _ => dec 5971840214030754 (-16))); [|apply cont_const].
      apply (continuity_pt_mult (fun _ => dec 248826675584615 (-16)) (fun x => Rmax (a x) 0)); [apply cont_const|].
      assert (E : forall y, Rmax y 0 = (y + Rabs y) / 2).
      { intros y. unfold Rmax. destruct (Rle_dec y 0); [rewrite Rabs_left1 by lra|rewrite Rabs_right by lra]; lra. }
      intros e He.
      assert (Hr : continuity_pt (fun x => (a x + Rabs (a x)) / 2) x).
      { unfold Rdiv. apply (continuity_pt_mult (fun x => a x + Rabs (a x)) (fun _ => / 2)); [|apply cont_const].
        apply (continuity_pt_plus a (fun x => Rabs (a x))); [exact Ha|].
        apply (continuity_pt_comp a Rabs); [exact Ha|apply Rcontinuity_abs]. }
      destruct (Hr e He) as (d & Hd & Hh). exists d. split; [exact Hd|]. intros y Hy. rewrite !E. apply Hh. exact Hy.
    - apply (continuity_pt_mult b (fun _ => dec 25 (-3))); [exact Hb|apply cont_const].
    - apply (continuity_pt_mult (fun x => c x * zp) (fun _ => dec 1 (-4))); [exact cz|apply cont_const].
  Qed.
  Lemma jm_cont : ocean (a x) (b x) (c x * zp) -> continuity_pt (fun x => jm_rho (a x) (b x) (c x * zp)) x.
  Proof.
    intros Ho. pose proof (jm_signs _ _ _ Ho) as (Hk & _). pose proof Ho as (_ & _ & Hp).
    assert (HK : continuity_pt (fun x => jm_K (a x) (b x) (c x * zp)) x).
    { unfold jm_K. apply (cont_poly _ (fun x => sqrt (a x)) b (fun x => c x * zp)); [apply cont_sqrt; exact Ha|exact Hb|exact cz]. }
    unfold jm_rho.
    apply (continuity_pt_div (fun x => jm_rho0 (a x) (b x)) (fun x => 1 - c x * zp / jm_K (a x) (b x) (c x * zp))).
    - unfold jm_rho0. apply (cont_poly _ (fun x => sqrt (a x)) b (fun _ => 0)); [apply cont_sqrt; exact Ha|exact Hb|apply cont_const].
    - apply (continuity_pt_minus (fun _ => 1) (fun x => c x * zp / jm_K (a x) (b x) (c x * zp))); [apply cont_const|].
      apply (continuity_pt_div (fun x => c x * zp) (fun x => jm_K (a x) (b x) (c x * zp))); [exact cz|exact HK|lra].
    - intros E. assert (jm_K (a x) (b x) (c x * zp) = c x * zp).
      { replace (1 - c x * zp / jm_K (a x) (b x) (c x * zp)) with ((jm_K (a x) (b x) (c x * zp) - c x * zp) / jm_K (a x) (b x) (c x * zp)) in E by (field; lra).
        apply Rmult_integral in E. destruct E as [E|E]; [lra|]. apply Rinv_neq_0_compat in E; [contradiction|lra]. }
      lra.
  Qed.
  Lemma jf_cont : ocean (a x) (b x) (c x * zp) -> continuity_pt (fun x => jf_rho (a x) (b x) (c x * zp)) x.
  Proof.
    intros Ho. pose proof (jf_signs _ _ _ Ho) as (_ & Hk & _).
    assert (HK : forall l, continuity_pt (fun x => poly l (sqrt (a x)) (b x) (c x * zp)) x).
    { intros l. apply (cont_poly _ (fun x => sqrt (a x)) b (fun x => c x * zp)); [apply cont_sqrt; exact Ha|exact Hb|exact cz]. }
    unfold jf_rho. apply (continuity_pt_div (fun x => jf_num (a x) (b x) (c x * zp)) (fun x => jf_den (a x) (b x) (c x * zp))); [apply HK|apply HK|lra].
  Qed.
End Continuity.

(** ** The functions make_eos and make_eos_s_t return *)
Record good_eos (D : domain) (f : xr -> xr -> xr -> res xr) (v : R -> R -> R -> R) : Prop := mkgood {
  g_on : eos_on D f v;
  g_nan : forall s t p, missing (s, t, p) -> f s t p = Ok NaN;
  g_cont : continuous3 D v
}.
Record good_eos_s_t (D : domain) (g : xr -> xr -> xr -> res (xr * xr)) (v vs vt : R -> R -> R -> R) : Prop := mkgood_s_t {
  gs_on : eos_s_t_on D g vs vt;
  gs_nan : nan_safe g;
  gs_diff : forall s t p, dS D s -> dT D t -> dP D p -> 0 < s -> diff_s v s t p (vs s t p) /\ diff_t v s t p (vt s t p)
}.
Lemma seas_ocean zp s t p : dS (seas zp) s -> dT (seas zp) t -> dP (seas zp) p -> ocean s t (p * zp).
Proof. intros Hs Ht Hp. repeat split; apply Hs || apply Ht || apply Hp. Qed.

Lemma factor g r p : mul (Fin p) (mul (mul (lit 1 (-4)) (Fin g)) (Fin r)) = Fin (p * (g * r / 10000)).
Proof. cbn [mul lit xrNum xr_mul]. f_equal. unfold Rlit. simpl. field. Qed.

Lemma named_ok name v grav rho_c zp : named_eos name v -> pressure_factor grav rho_c zp ->
  exists f, make_eos sdiv (AStr name) grav rho_c = Ok (F1 f) /\ good_eos (seas zp) f (at_depth zp v).
Proof.
  intros Hd Hz.
  assert (A : exists f0, attribute sdiv name (match lookup name modules with Some b => b ++ "" | None => "" end)%string = Ok (F1 f0)
     /\ lookup name modules <> None
     /\ (forall s t p, missing (s, t, p) -> f0 s t p = Ok NaN)
     /\ (forall s t p, ocean s t p -> f0 (Fin s) (Fin t) (Fin p) = Ok (Fin (v s t p)))
     /\ continuous3 (seas zp) (at_depth zp v)).
  { destruct Hd.
    - exists gsw_specvol. split; [reflexivity|]. split; [discriminate|]. split; [exact gsw_nan'|]. split; [intros s t p _; apply specvol_x|].
      intros a b c x Ha Hb Hc _ _ _. apply teos_cont; assumption.
    - exists (jmd95_rho sdiv). split; [reflexivity|]. split; [discriminate|]. split; [exact jmd95_nan|].
      split; [intros s t p H; apply jmd95_x; apply jm_ocean_dom; exact H|].
      intros a b c x Ha Hb Hc H1 H2 H3. apply jm_cont; try assumption. apply seas_ocean; assumption.
    - exists (jmdfwg06_rho sdiv). split; [reflexivity|]. split; [discriminate|]. split; [exact jmdfwg06_nan|].
      split; [intros s t p H; apply jmdfwg06_x; apply jf_ocean_dom; exact H|].
      intros a b c x Ha Hb Hc H1 H2 H3. apply jf_cont; try assumption. apply seas_ocean; assumption. }
  destruct A as (f0 & Ef & Hl & Hn & Hv & Hc).
  unfold make_eos, _make_eos. destruct (lookup name modules) as [base|] eqn:El; [|congruence]. rewrite Ef. cbn [bind].
  destruct Hz as [[Hz ->]|(g & r & -> & -> & ->)].
  - exists f0. split; [destruct Hz as [-> | ->]; [reflexivity|destruct grav; reflexivity]|]. split; [|exact Hn|exact Hc].
    intros s t p H1 H2 H3. unfold at_depth. rewrite Rmult_1_r. apply Hv. rewrite <- (Rmult_1_r p). apply seas_ocean; assumption.
  - eexists. split; [reflexivity|]. split; [| |exact Hc].
    + intros s t p H1 H2 H3. cbn beta. rewrite factor. unfold at_depth. apply Hv. apply seas_ocean; assumption.
    + intros s t p Hm. cbn beta. apply Hn. destruct Hm as [-> | [-> | ->]]; unfold missing; auto.
Qed.

Lemma named_s_t_ok name v grav rho_c zp : named_eos name v -> pressure_factor grav rho_c zp ->
  exists g vs vt, make_eos_s_t sdiv (AStr name) grav rho_c = Ok (F2 g) /\ good_eos_s_t (seas zp) g (at_depth zp v) vs vt.
Proof.
  intros Hd Hz.
  assert (A : exists g0 vs vt, attribute sdiv name (match lookup name modules with Some b => b ++ "_s_t" | None => "" end)%string = Ok (F2 g0)
     /\ lookup name modules <> None /\ nan_safe g0
     /\ (forall s t p, ocean s t p -> g0 (Fin s) (Fin t) (Fin p) = Ok (Fin (vs s t p), Fin (vt s t p)))
     /\ (forall s t p, ocean s t p -> 0 < s -> diff_s v s t p (vs s t p) /\ diff_t v s t p (vt s t p))).
  { destruct Hd.
    - destruct teos_x_all as (_ & vs & vt & H1 & H2 & H3).
      exists (gsw_specvol_s_t sdiv), vs, vt. split; [reflexivity|]. split; [discriminate|]. split; [exact gsw_s_t_nan|].
      split; [intros s t p _; apply (H3 sdiv); left; reflexivity|]. intros s t p _ Hs. split; [apply H1; exact Hs|apply H2].
    - exists (jmd95_rho_s_t sdiv), (fun s t p => val1 (jmd95_rho_s_t sdiv s t p)), (fun s t p => val2 (jmd95_rho_s_t sdiv s t p)).
      split; [reflexivity|]. split; [discriminate|]. split; [exact jmd95_s_t_nan|]. split.
      + intros s t p H. rewrite jmd95_s_t_x by apply H. destruct (jmd95_s_t_ok s t p) as (rs & rt & ->); [apply jm_ocean_dom; exact H|]. reflexivity.
      + intros s t p H Hs. destruct (jm_all sdiv (or_introl eq_refl) s t p) as (_ & _ & Hst); [apply jm_ocean_dom; exact H|].
        destruct (Hst Hs) as (rs & rt & E & D1 & D2). rewrite E. split; assumption.
    - exists (jmdfwg06_rho_s_t sdiv), (fun s t p => val1 (jmdfwg06_rho_s_t sdiv s t p)), (fun s t p => val2 (jmdfwg06_rho_s_t sdiv s t p)).
      split; [reflexivity|]. split; [discriminate|]. split; [exact jmdfwg06_s_t_nan|]. split.
      + intros s t p H. rewrite jmdfwg06_s_t_x by apply H. destruct (jmdfwg06_s_t_ok s t p) as (rs & rt & ->); [apply jf_ocean_dom; exact H|]. reflexivity.
      + intros s t p H Hs. destruct (jf_all sdiv (or_introl eq_refl) s t p) as (_ & _ & Hst); [apply jf_ocean_dom; exact H|].
        destruct (Hst Hs) as (rs & rt & E & D1 & D2). rewrite E. split; assumption. }
  destruct A as (g0 & vs & vt & Ef & Hl & Hn & Hv & Hc).
  unfold make_eos_s_t, _make_eos. destruct (lookup name modules) as [base|] eqn:El; [|congruence]. rewrite Ef. cbn [bind].
  destruct Hz as [[Hz ->]|(g & r & -> & -> & ->)].
  - exists g0, (at_depth 1 vs), (at_depth 1 vt). split; [destruct Hz as [-> | ->]; [reflexivity|destruct grav; reflexivity]|]. split; [|exact Hn|].
    + intros s t p H1 H2 H3. unfold at_depth. rewrite Rmult_1_r. apply Hv. rewrite <- (Rmult_1_r p). apply seas_ocean; assumption.
    + intros s t p H1 H2 H3 Hs. apply Hc; [apply seas_ocean; assumption|exact Hs].
  - eexists _, (at_depth _ vs), (at_depth _ vt). split; [reflexivity|]. split.
    + intros s t p H1 H2 H3. cbn beta. rewrite factor. unfold at_depth. apply Hv. apply seas_ocean; assumption.
    + intros s t p Hm. cbn beta. apply Hn. destruct Hm as [-> | [-> | ->]]; unfold missing; auto.
    + intros s t p H1 H2 H3 Hs. apply Hc; [apply seas_ocean; assumption|exact Hs].
Qed.

Lemma process_named name v grav rho_c zp need : named_eos name v -> pressure_factor grav rho_c zp ->
  exists f g vs vt, _process_eos sdiv (AStr name) grav rho_c need = Ok (F1 f, if need then Some (F2 g) else None)
    /\ good_eos (seas zp) f (at_depth zp v) /\ good_eos_s_t (seas zp) g (at_depth zp v) vs vt.
Proof.
  intros Hd Hz. destruct (named_ok _ _ _ _ _ Hd Hz) as (f & Ef & Gf). destruct (named_s_t_ok _ _ _ _ _ Hd Hz) as (g & vs & vt & Eg & Gg).
  exists f, g, vs, vt. split; [|split; assumption]. unfold _process_eos. rewrite Ef, Eg. destruct need; reflexivity.
Qed.
