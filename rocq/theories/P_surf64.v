(** * Surfaces and neutral links in binary64 with the equations of state of the code: proofs *)
From Coq Require Import ZArith Bool Reals Lra Lia List SpecFloat.
From Flocq Require Import Core.Raux.
From Verif Require Import Num XR SF Res Arr ArrLemmas XRlemmas M_fzero S_fzero S_fzero64 M_ppinterp M_eos_base M_jmd95 M_jmdfwg06 M_gsw
  S_eos S_float S_interp S_domain S_named S_traj M_traj M_vertsolve S_vertsolve S_vert64 P_float P_fl P_fzero64 P_holds P_ppinterp P_traj P_vertsolve P_domain
  P_linear64 P_eosfloat4 P_eosx P_named P_vert64.
Import ListNotations.
Local Open Scope R_scope.

Lemma small_big z : Rabs z <= 1000000 -> Rabs z <= big64.
Proof. intros Hz. apply big_ge. eapply Rle_trans; [exact Hz|]. apply Rle_trans with (powerRZ 2 20); [simpl; lra|]. apply pow2_le. lia. Qed.
Lemma within_self (x : f64) e : finite64 x -> 0 <= e -> S_float.within x (fval x) e.
Proof. intros F He. split; [exact F|]. replace (fval x - fval x) with 0 by ring. rewrite Rabs_R0. exact He. Qed.

(** a difference of two approximations *)
Lemma sub_within (x y : f64) a b da db Bx By : S_float.within x a da -> S_float.within y b db -> Rabs a <= Bx -> Rabs b <= By ->
  Bx + By + da + db <= 1000000 ->
  S_float.within (sub x y) (a - b) (da + db + (u64 * (Bx + By + da + db) + eta64)).
Proof.
  intros [Fx Hx] [Fy Hy] Ha Hb HB.
  assert (Hm : Rabs (fval x - fval y) <= Bx + By + da + db).
  { replace (fval x - fval y) with ((fval x - a) - (fval y - b) + (a - b)) by ring.
    eapply Rle_trans; [apply Rabs_triang|]. eapply Rle_trans; [apply Rplus_le_compat_r, Rabs_triang|].
    rewrite Rabs_Ropp. pose proof (Rabs_triang a (- b)). rewrite Rabs_Ropp in *. unfold Rminus at 3. lra. }
  destruct (sf_sub_near x y Fx Fy) as [F E]; [apply small_big; lra|]. change (sf_sub x y) with (sub x y) in *.
  split; [exact F|].
  replace (fval (sub x y) - (a - b)) with ((fval (sub x y) - (fval x - fval y)) + ((fval x - a) - (fval y - b))) by ring.
  eapply Rle_trans; [apply Rabs_triang|]. assert (U : 0 < u64) by exact u64_pos.
  assert (W : u64 * Rabs (fval x - fval y) <= u64 * (Bx + By + da + db)) by (apply Rmult_le_compat_l; lra).
  pose proof (Rabs_triang (fval x - a) (- (fval y - b))) as Tr. rewrite Rabs_Ropp in Tr. unfold Rminus at 3. lra.
Qed.
Lemma add_within (x y : f64) a b da db Bx By : S_float.within x a da -> S_float.within y b db -> Rabs a <= Bx -> Rabs b <= By ->
  Bx + By + da + db <= 1000000 ->
  S_float.within (add x y) (a + b) (da + db + (u64 * (Bx + By + da + db) + eta64)).
Proof.
  intros [Fx Hx] [Fy Hy] Ha Hb HB.
  assert (Hm : Rabs (fval x + fval y) <= Bx + By + da + db).
  { replace (fval x + fval y) with ((fval x - a) + (fval y - b) + (a + b)) by ring.
    eapply Rle_trans; [apply Rabs_triang|]. eapply Rle_trans; [apply Rplus_le_compat_r, Rabs_triang|].
    pose proof (Rabs_triang a b). lra. }
  destruct (sf_add_near x y Fx Fy) as [F E]; [apply small_big; lra|]. change (sf_add x y) with (add x y) in *.
  split; [exact F|].
  replace (fval (add x y) - (a + b)) with ((fval (add x y) - (fval x + fval y)) + ((fval x - a) + (fval y - b))) by ring.
  eapply Rle_trans; [apply Rabs_triang|]. assert (U : 0 < u64) by exact u64_pos.
  assert (W : u64 * Rabs (fval x + fval y) <= u64 * (Bx + By + da + db)) by (apply Rmult_le_compat_l; lra).
  pose proof (Rabs_triang (fval x - a) (fval y - b)) as Tr. lra.
Qed.
Lemma within_mono (y : f64) r a b : a <= b -> S_float.within y r a -> S_float.within y r b.
Proof. intros H [F E]. split; [exact F|lra]. Qed.

(** the mean of two pressures *)
Lemma mean_within (p q : f64) : finite64 p -> finite64 q -> 0 <= fval p <= 10000 -> 0 <= fval q <= 10000 ->
  S_float.within (mul (add p q) (lit 5 (-1)) : f64) ((fval p + fval q) / 2) (dec 3 (-12)).
Proof.
  intros Fp Fq Hp Hq. destruct fl_half as [Fh Vh].
  assert (Ee : eta64 <= powerRZ 2 (-60)) by (unfold eta64; apply pow2_le; lia).
  assert (U : u64 = / 9007199254740992) by reflexivity.
  assert (E60 : powerRZ 2 (-60) = / 1152921504606846976) by (simpl; lra).
  assert (D : dec 3 (-12) = 3 / 1000000000000) by (unfold dec; simpl; lra).
  assert (Q1 : Rabs (fval p + fval q) <= 1000000) by (rewrite Rabs_pos_eq; lra).
  destruct (sf_add_near p q Fp Fq (small_big _ Q1)) as [Fs Es]. rewrite (Rabs_pos_eq (fval p + fval q)) in Es by lra.
  change (sf_add p q) with (add p q) in *. apply abs_le_of in Es.
  assert (W1 : u64 * (fval p + fval q) <= u64 * 20000) by (apply Rmult_le_compat_l; [rewrite U; lra|lra]).
  assert (Q2 : Rabs (fval (add p q) * fval (lit 5 (-1) : f64)) <= 1000000).
  { rewrite Vh. rewrite U in *. apply Rabs_le. lra. }
  destruct (sf_mul_near (add p q) (lit 5 (-1) : f64) Fs Fh (small_big _ Q2)) as [Fm Em]. rewrite Vh in Em.
  change (sf_mul (add p q) (lit 5 (-1))) with (mul (add p q) (lit 5 (-1))) in *.
  split; [exact Fm|]. apply abs_le_of in Em.
  assert (W2 : u64 * Rabs (fval (add p q) * / 2) <= u64 * 10001).
  { apply Rmult_le_compat_l; [rewrite U; lra|]. apply Rabs_le. rewrite U in *. lra. }
  apply Rabs_le. rewrite D. rewrite U in *. lra.
Qed.

Section Eos.
  Variables (eos : f64 -> f64 -> f64 -> res f64) (rho : R -> R -> R -> R) (s0 pm e ep d B d' : R).
  Hypothesis Hpm : pm <= 10000.
  Hypothesis Heos : eos64_on (sea s0 pm) eos rho e e ep d B.
  Hypothesis Hep : dec 3 (-12) <= ep.
  Hypothesis Hd0 : 0 <= d.
  Hypothesis He0 : 0 <= e.
  Hypothesis Hd1 : d <= / 1000.
  Hypothesis HB : 0 <= B <= 10000.
  (** room for the roundings of the subtractions *)
  Let W := u64 * (B + d) + eta64.
  Hypothesis Hd' : d + 3 * W <= d'.

  Lemma sea_range x : dP (sea s0 pm) x -> 0 <= x <= 10000.
  Proof. clear -Hpm. cbn [sea box dP]. unfold upto. lra. Qed.
  Lemma ep_pos : 0 <= ep.
  Proof. eapply Rle_trans; [|exact Hep]. unfold dec. simpl. lra. Qed.
  Lemma W_small : 0 < W <= / 1000.
  Proof.
    assert (0 <= u64 * (B + d)) by (apply Rmult_le_pos; [unfold u64; lra|lra]). pose proof eta64_pos.
    assert (Ee : eta64 <= / 10000) by (eapply Rle_trans; [unfold eta64; apply (pow2_le _ (-20)); lia|simpl; lra]).
    unfold W. split; [lra|]. assert (u64 * (B + d) <= u64 * 20000) by (apply Rmult_le_compat_l; [unfold u64; lra|lra]).
    assert (u64 * 20000 <= / 10000) by (unfold u64; lra). lra.
  Qed.
  Lemma W_sub x : x <= 2 * B + 2 * d -> u64 * x + eta64 <= 2 * W.
  Proof.
    intros H. assert (u64 * x <= u64 * (2 * B + 2 * d)) by (apply Rmult_le_compat_l; [unfold u64; lra|exact H]).
    pose proof eta64_pos. unfold W. lra.
  Qed.
  Lemma W_sub3 x : x <= 3 * B + 3 * d + 2 * W -> u64 * x + eta64 <= 4 * W.
  Proof.
    intros H. assert (u64 * x <= u64 * (3 * B + 3 * d + 2 * W)) by (apply Rmult_le_compat_l; [unfold u64; lra|exact H]).
    assert (u64 * W <= / 1000 * W) by (apply Rmult_le_compat_r; [left; apply W_small|unfold u64; lra]).
    pose proof eta64_pos. pose proof W_small. assert (u64 * (B + d) = W - eta64) by (unfold W; ring). lra.
  Qed.

  Lemma zero_potential_64 (ref iso : f64) vi di : finite64 ref -> 0 <= fval ref <= pm -> S_float.within iso vi di -> 0 <= di -> di <= d + 2 * W ->
    Rabs vi <= 2 * B + d - di -> 
    evaluates64 s0 pm e (zero_potential eos ref iso) (potential_of rho (fval ref) vi) (d + di + (u64 * (B + Rabs vi + d + di) + eta64)).
  Proof.
    intros Fr Hr Wi D0 D1 Hi P Sppc Tppc p s t vs vt Ep Ds Dt Fp Dp Ws Wt.
    destruct (Heos s t ref vs vt (fval ref) Ds Dt Hr Ws Wt (within_self ref ep Fr ep_pos)) as (Bv & y & Ey & Wy).
    exists (sub y iso). split; [unfold zero_potential; rewrite Ep; cbn [bind]; rewrite Ey; reflexivity|].
    unfold potential_of. apply sub_within; [exact Wy|exact Wi|exact Bv|apply Rle_refl|]. pose proof W_small. lra.
  Qed.
  Lemma zero_potential_64' (ref iso : f64) : finite64 ref -> 0 <= fval ref <= pm -> finite64 iso -> Rabs (fval iso) <= B ->
    evaluates64 s0 pm e (zero_potential eos ref iso) (potential_of rho (fval ref) (fval iso)) d'.
  Proof.
    intros Fr Hr Fi Hi P Sppc Tppc p s t vs vt Ep Ds Dt Fp Dp Ws Wt. pose proof W_small.
    destruct (zero_potential_64 ref iso (fval iso) 0 Fr Hr (within_self iso 0 Fi (Rle_refl 0)) (Rle_refl 0) ltac:(lra) ltac:(lra)
      P Sppc Tppc p s t vs vt Ep Ds Dt Fp Dp Ws Wt) as (y & Ey & Wy).
    exists y. split; [exact Ey|]. eapply within_mono; [|exact Wy]. pose proof (W_sub (B + Rabs (fval iso) + d + 0) ltac:(lra)). lra.
  Qed.

  Lemma zero_anomaly_64 (sr tr iso : f64) : finite64 sr -> s0 <= fval sr <= 42 -> finite64 tr -> -3 <= fval tr <= 40 ->
    finite64 iso -> Rabs (fval iso) <= B ->
    evaluates64 s0 pm e (zero_anomaly eos (sr, tr) iso) (anomaly_of rho (fval sr) (fval tr) (fval iso)) (2 * d').
  Proof.
    intros Fs Hs Ft Ht Fi Hi P Sppc Tppc p s t vs vt Ep Ds Dt Fp Dp Ws Wt. pose proof W_small as Ws0.
    destruct (Heos s t p vs vt (fval p) Ds Dt Dp Ws Wt (within_self p ep Fp ep_pos)) as (Bv & y & Ey & Wy).
    destruct (Heos sr tr p (fval sr) (fval tr) (fval p) Hs Ht Dp (within_self sr e Fs He0) (within_self tr e Ft He0) (within_self p ep Fp ep_pos))
      as (Bv0 & y0 & Ey0 & Wy0).
    exists (sub (sub y y0) iso). split.
    { unfold zero_anomaly. rewrite Ep. cbn [bind fst snd]. rewrite Ey. cbn [bind]. rewrite Ey0. reflexivity. }
    assert (W1 := sub_within y y0 _ _ d d B B Wy Wy0 Bv Bv0 ltac:(lra)).
    apply (within_mono _ _ _ (2 * d + 2 * W)) in W1; [|pose proof (W_sub (B + B + d + d) ltac:(lra)); lra].
    unfold anomaly_of. refine (within_mono _ _ _ _ _ (sub_within (sub y y0) iso _ _ _ 0 (B + B) B W1 (within_self iso 0 Fi (Rle_refl 0)) _ Hi _)).
    - pose proof (W_sub3 (B + B + B + (2 * d + 2 * W) + 0) ltac:(lra)). lra.
    - pose proof (Rabs_triang (rho vs vt (fval p)) (- rho (fval sr) (fval tr) (fval p))) as Tr. rewrite Rabs_Ropp in Tr.
      unfold Rminus. lra.
    - lra.
  Qed.

  (** the function whose root the neutral link is *)
  Lemma pot_dens_diff_64 (sB tB pB : f64) vs0 vt0 : dS (sea s0 pm) vs0 -> dT (sea s0 pm) vt0 -> finite64 pB -> dP (sea s0 pm) (fval pB) ->
    S_float.within sB vs0 e -> S_float.within tB vt0 e ->
    evaluates64 s0 pm e (pot_dens_diff eos sB tB pB) (neutral_of rho vs0 vt0 (fval pB)) (2 * d').
  Proof.
    intros Ds0 Dt0 FB DB WsB WtB P Sppc Tppc p s t vs vt Ep Ds Dt Fp Dp Ws Wt. pose proof W_small as Ws0.
    assert (Wp := mean_within pB p FB Fp (sea_range _ DB) (sea_range _ Dp)). apply (within_mono _ _ _ ep Hep) in Wp.
    assert (Dm : dP (sea s0 pm) ((fval pB + fval p) / 2)) by (cbn [sea box dP] in *; unfold upto in *; lra).
    destruct (Heos _ _ _ vs0 vt0 _ Ds0 Dt0 Dm WsB WtB Wp) as (Bv0 & y0 & Ey0 & Wy0).
    destruct (Heos _ _ _ vs vt _ Ds Dt Dm Ws Wt Wp) as (Bv & y & Ey & Wy).
    exists (sub y0 y). split.
    { unfold pot_dens_diff. rewrite Ep. cbn [bind]. rewrite Ey0. cbn [bind]. rewrite Ey. reflexivity. }
    unfold neutral_of. refine (within_mono _ _ _ _ _ (sub_within y0 y _ _ d d B B Wy0 Wy Bv0 Bv ltac:(lra))).
    pose proof (W_sub (B + B + d + d) ltac:(lra)). lra.
  Qed.
  Hypothesis Hc : continuous3 (sea s0 pm) rho.
  Lemma neutral_continuous vs0 vt0 pB : dS (sea s0 pm) vs0 -> dT (sea s0 pm) vt0 -> dP (sea s0 pm) pB ->
    continuous3 (sea s0 pm) (neutral_of rho vs0 vt0 pB).
  Proof.
    intros Ds0 Dt0 DB a b c x Ha Hb Hcx Da Db Dc.
    assert (Hm : dP (sea s0 pm) ((pB + c x) / 2)) by exact (interval_mid _ _ _ (dP_interval (sea s0 pm)) DB Dc).
    assert (Hp : continuity_pt (fun x => (pB + c x) / 2) x).
    { apply (continuity_pt_mult (fun x => pB + c x) (fun _ => / 2)); [|apply cont_const].
      apply (continuity_pt_plus (fun _ => pB) c); [apply cont_const|exact Hcx]. }
    unfold neutral_of.
    apply (continuity_pt_minus (fun x => rho vs0 vt0 ((pB + c x) / 2)) (fun x => rho (a x) (b x) ((pB + c x) / 2))).
    - apply (Hc (fun _ => vs0) (fun _ => vt0) (fun x => (pB + c x) / 2)); auto; apply cont_const.
    - apply (Hc a b (fun x => (pB + c x) / 2)); assumption.
  Qed.

  Variable ppc_fn : list f64 -> list f64 -> res (list (list f64)).
  Variable rel : nat -> (nat -> R) -> (nat -> R) -> (R -> R) -> Prop.
  Hypothesis Hs0 : 0 <= s0.
  Hypothesis Hppc : interpolator64 ppc_fn rel (powerRZ 2 (-30)) 10000 42 e.
  Variable tol : f64.
  Hypothesis Ftol : finite64 tol.
  Hypothesis Htol : tolerance_ok (fval tol).

  Lemma d'_pos : 0 <= d'. Proof. pose proof W_small. lra. Qed.

  Lemma potential_64 (ref iso : f64) casts casts' : finite64 ref -> 0 <= fval ref <= pm -> finite64 iso -> Rabs (fval iso) <= B ->
    Forall2 holds_column casts casts' -> Forall any_cast casts' -> Forall (cast_in (sea s0 pm)) casts' -> Forall column_spaced casts' ->
    exists x, (forall fuel, Forall (enough_fuel64 fuel (fval tol)) casts' ->
        vertsolve ppc_fn fuel (zero_potential eos ref iso) tol casts = Ok x)
      /\ Forall2 (surface_point64 rel (potential_of rho (fval ref) (fval iso)) (fval tol) e d') casts' x.
  Proof.
    intros Fr Hr Fi Hi. apply (vertsolve_64 ppc_fn rel s0 pm e Hpm Hs0 Hppc tol Ftol Htol); [exact d'_pos|apply zero_potential_64'; assumption|].
    apply continuous_potential; [exact Hr|exact Hc].
  Qed.
  Lemma anomaly_64 (sr tr iso : f64) casts casts' : finite64 sr -> s0 <= fval sr <= 42 -> finite64 tr -> -3 <= fval tr <= 40 ->
    finite64 iso -> Rabs (fval iso) <= B ->
    Forall2 holds_column casts casts' -> Forall any_cast casts' -> Forall (cast_in (sea s0 pm)) casts' -> Forall column_spaced casts' ->
    exists x, (forall fuel, Forall (enough_fuel64 fuel (fval tol)) casts' ->
        vertsolve ppc_fn fuel (zero_anomaly eos (sr, tr) iso) tol casts = Ok x)
      /\ Forall2 (surface_point64 rel (anomaly_of rho (fval sr) (fval tr) (fval iso)) (fval tol) e (2 * d')) casts' x.
  Proof.
    intros Fs Hs Ft Ht Fi Hi. apply (vertsolve_64 ppc_fn rel s0 pm e Hpm Hs0 Hppc tol Ftol Htol).
    - pose proof d'_pos. lra.
    - apply zero_anomaly_64; assumption.
    - apply continuous_anomaly; [exact Hs|exact Ht|exact Hc].
  Qed.

  (** one column of the omega step *)
  Lemma omega_64 (s t p ϕ : f64) vs vt c c' : S_float.within s vs e -> dS (sea s0 pm) vs -> S_float.within t vt e -> dT (sea s0 pm) vt ->
    finite64 p -> dP (sea s0 pm) (fval p) -> finite64 ϕ -> fval ϕ <> 0 -> Rabs (fval ϕ) <= B - d - 2 * W ->
    holds_column c c' -> any_cast c' -> cast_in (sea s0 pm) c' -> column_spaced c' -> guess_apart (fval p) c' ->
    exists r, (forall fuel, enough_fuel64 fuel (fval tol) c' -> vertsolve_omega_1 eos ppc_fn fuel tol (s, t, p) c ϕ = Ok r)
      /\ surface_point64 rel (potential_of rho (fval p) (rho vs vt (fval p) + fval ϕ)) (fval tol) e (2 * d') c' r.
  Proof.
    intros Ws Ds Wt Dt Fp Dp Fϕ Nϕ Bϕ Hh Ha Hin Hsp Hga. pose proof W_small as W0. destruct c as [[Sc Tc] Pc], c' as [[S' T'] P'].
    assert (Z : (ϕ =? lit 0 0)%num = false).
    { change (ϕ =? lit 0 0)%num with (SFeqb ϕ (lit 0 0 : f64)). destruct fl_zero as [F0 V0]. rewrite eqb_val by assumption.
      rewrite V0. apply Req_bool_false. exact Nϕ. }
    assert (Fi : isfinite ϕ = true) by exact (finite_isfinite ϕ Fϕ).
    destruct Ha as [Hs|(k & K & ss & ts & ps & HC & H2)].
    - exists (nan, nan, nan). split; [|left; auto]. intros fuel _.
      destruct (short_range64 _ _ _ _ _ _ Hh Hs) as (k & K & E & HK). unfold vertsolve_omega_1. rewrite Z, E. cbn [bind]. rewrite HK. reflexivity.
    - assert (Hlt : Nat.ltb 1 (K - k) = true) by (apply Nat.ltb_lt; lia).
      destruct (Heos s t p vs vt (fval p) Ds Dt Dp Ws Wt (within_self p ep Fp ep_pos)) as (Bv & y & Ey & Wy).
      assert (Wi := add_within y ϕ _ _ d 0 B B Wy (within_self ϕ 0 Fϕ (Rle_refl 0)) Bv ltac:(lra) ltac:(lra)).
      apply (within_mono _ _ _ (d + 2 * W)) in Wi; [|pose proof (W_sub (B + B + d + 0) ltac:(lra)); lra].
      set (vi := rho vs vt (fval p) + fval ϕ) in *.
      assert (Bi : Rabs vi <= 2 * B - d - 2 * W) by (unfold vi; eapply Rle_trans; [apply Rabs_triang|]; lra).
      assert (Hz : evaluates64 s0 pm e (zero_potential eos p (add y ϕ)) (potential_of rho (fval p) vi) (2 * d')).
      { intros P Sppc Tppc q s' t' vs' vt' Eq Ds' Dt' Fq Dq Ws' Wt'.
        destruct (zero_potential_64 p (add y ϕ) vi (d + 2 * W) Fp Dp Wi ltac:(lra) ltac:(lra) ltac:(lra) P Sppc Tppc q s' t' vs' vt' Eq Ds' Dt' Fq Dq Ws' Wt')
          as (z & Ez & Wz).
        exists z. split; [exact Ez|]. eapply within_mono; [|exact Wz].
        pose proof (W_sub3 (B + Rabs vi + d + (d + 2 * W)) ltac:(lra)). lra. }
      destruct (Hga _ _ _ _ _ HC) as [XA XB].
      destruct (column_search64 ppc_fn rel s0 pm e Hpm Hs0 Hppc _ _ (2 * d') tol p Sc Tc Pc S' T' P' k K ss ts ps ltac:(pose proof d'_pos; lra) Hz
        (continuous_potential _ _ _ _ Dp Hc) Ftol Htol Hh HC H2 Hin Hsp Fp XA XB)
        as (Sppc & Tppc & A & B' & E1 & E2 & G0 & G1 & _ & _ & _ & _ & Hcs).
      assert (HR := cast_range64 Sc Pc S' T' P' k K ss ts ps (proj1 Hh) (proj2 (proj2 Hh)) HC).
      destruct Hcs as [[Hg Hp]|(a & b & q & s' & t' & Hg & Fa & Hb & Eq & Fq & Hp)].
      + exists (nan, nan, nan). split; [|exact Hp]. intros fuel [F1 F2].
        unfold vertsolve_omega_1. rewrite Z, HR. cbn [bind]. rewrite Hlt, Fi, E1, E2. cbn [bind andb]. rewrite Ey. cbn [bind]. rewrite G0, G1. cbn [bind].
        rewrite Hg by exact F1. reflexivity.
      + exists (s', t', q). split; [|exact Hp]. intros fuel [F1 F2]. specialize (F2 _ _ _ _ _ HC).
        unfold vertsolve_omega_1. rewrite Z, HR. cbn [bind]. rewrite Hlt, Fi, E1, E2. cbn [bind andb]. rewrite Ey. cbn [bind]. rewrite G0, G1. cbn [bind].
        rewrite Hg by exact F1. cbn [bind].
        change (isfinite a) with (sf_isfinite a). rewrite (finite_isfinite a Fa). rewrite Hb by exact F2. cbn [bind]. rewrite Eq. reflexivity.
  Qed.

  (** one neutral link *)
  Lemma link_64 (s t p : f64) vs vt c c' : S_float.within s vs e -> dS (sea s0 pm) vs -> S_float.within t vt e -> dT (sea s0 pm) vt ->
    finite64 p -> dP (sea s0 pm) (fval p) ->
    holds_column c c' -> any_cast c' -> cast_in (sea s0 pm) c' -> column_spaced c' -> guess_apart (fval p) c' ->
    let '(Sc, Tc, Pc) := c in
    exists r, (forall fuel, enough_fuel64 fuel (fval tol) c' -> ntp_bottle_to_cast_pub eos ppc_fn fuel s t p Sc Tc Pc tol = Ok r)
      /\ surface_point64 rel (neutral_of rho vs vt (fval p)) (fval tol) e (2 * d') c' r.
  Proof.
    intros Ws Ds Wt Dt Fp Dp Hh Ha Hin Hsp Hga. destruct c as [[Sc Tc] Pc], c' as [[S' T'] P'].
    destruct Ha as [Hs|(k & K & ss & ts & ps & HC & H2)].
    - exists (nan, nan, nan). split; [|left; auto]. intros fuel _.
      destruct (short_range64 _ _ _ _ _ _ Hh Hs) as (k & K & E & HK). unfold ntp_bottle_to_cast_pub. rewrite E. cbn [bind].
      unfold ntp_bottle_to_cast. rewrite HK. reflexivity.
    - assert (Hlt : Nat.ltb 1 (K - k) = true) by (apply Nat.ltb_lt; lia).
      assert (Hz := pot_dens_diff_64 s t p vs vt Ds Dt Fp Dp Ws Wt).
      destruct (Hga _ _ _ _ _ HC) as [XA XB].
      destruct (column_search64 ppc_fn rel s0 pm e Hpm Hs0 Hppc _ _ (2 * d') tol p Sc Tc Pc S' T' P' k K ss ts ps ltac:(pose proof d'_pos; lra) Hz
        (neutral_continuous _ _ _ Ds Dt Dp) Ftol Htol Hh HC H2 Hin Hsp Fp XA XB)
        as (Sppc & Tppc & A & B' & E1 & E2 & G0 & G1 & _ & _ & _ & _ & Hcs).
      assert (HR := cast_range64 Sc Pc S' T' P' k K ss ts ps (proj1 Hh) (proj2 (proj2 Hh)) HC).
      destruct Hcs as [[Hg Hp]|(a & b & q & s' & t' & Hg & Fa & Hb & Eq & Fq & Hp)].
      + exists (nan, nan, nan). split; [|exact Hp]. intros fuel [F1 F2].
        unfold ntp_bottle_to_cast_pub. rewrite HR. cbn [bind]. unfold ntp_bottle_to_cast, ntp_bottle_to_cast_ppc.
        rewrite Hlt, E1, E2. cbn [bind]. rewrite G0, G1. cbn [bind]. rewrite Hg by exact F1. reflexivity.
      + exists (s', t', q). split; [|exact Hp]. intros fuel [F1 F2]. specialize (F2 _ _ _ _ _ HC).
        unfold ntp_bottle_to_cast_pub. rewrite HR. cbn [bind]. unfold ntp_bottle_to_cast, ntp_bottle_to_cast_ppc.
        rewrite Hlt, E1, E2. cbn [bind]. rewrite G0, G1. cbn [bind]. rewrite Hg by exact F1. cbn [bind].
        change (isfinite a) with (sf_isfinite a). rewrite (finite_isfinite a Fa). rewrite Hb by exact F2. cbn [bind].
        change (isfinite q) with (sf_isfinite q). rewrite (finite_isfinite q Fq). rewrite Eq. reflexivity.
  Qed.
End Eos.
