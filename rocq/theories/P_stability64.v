(** * Static stability in binary64: counting *)
From Coq Require Import String ZArith Bool Reals Lra Lia List SpecFloat.
From Flocq Require Import Core.Raux.
From Verif Require Import Num XR SF Res Arr ArrLemmas Nd NdLemmas M_lib M_eos_base M_jmd95 M_jmdfwg06 M_gsw M_eostools M_mixed_layer M_stability S_lib S_eos S_float S_domain S_named
  S_vertsolve S_vert64 S_entry64 S_mixed_layer S_surfaces S_stability S_stability64 P_float P_fl P_holds P_linear64 P_vert64 P_surf64 P_entry64 P_ntpnan64 P_lost64
  P_trajentry64 P_lib P_casts P_mixed_layer2 P_surfaces P_surfaces3 P_stability P_ml64 P_ml64c.
Import ListNotations.
Local Open Scope R_scope.

Lemma base_nan_p eos rho s0 e d B : base64 eos rho s0 e d B -> forall s t : f64, eos s t NAN = Ok NAN.
Proof.
  intros [dv e0 d0 [-> | ->] _|dv e0 d0 [-> | ->] _|e0 d0 _] s t.
  - unfold jmd95_rho. nan64. reflexivity.
  - unfold jmd95_rho. nan64. repeat (rewrite adiv_nan_r; cbn [bind]; nan64). reflexivity.
  - unfold jmdfwg06_rho. nan64. reflexivity.
  - unfold jmdfwg06_rho. nan64. repeat (rewrite adiv_nan_r; cbn [bind]; nan64). reflexivity.
  - unfold gsw_specvol, gsw__process. nan64. cbn [bind]. unfold gsw__specvol. nan64. reflexivity.
Qed.
Lemma make_nan_p name v s0 e d B grav rho_c f : named_eos name v -> limits64 name s0 e d B -> make_eos sdiv (AStr name) grav rho_c = Ok (F1 f) ->
  forall s t : f64, f s t NAN = Ok NAN.
Proof.
  intros Hn HL E s t. destruct (base_named name v s0 e d B Hn HL) as (f0 & Hb & Ef). specialize (Ef grav rho_c).
  unfold _process_eos in Ef. rewrite E in Ef. cbn [bind] in Ef. pose proof (base_nan_p _ _ _ _ _ _ Hb) as H.
  destruct grav as [g|]; [destruct rho_c as [r|]|]; injection Ef as ->; cbv beta; rewrite ?mul_nan_l; apply H.
Qed.

(** the mean of two pressures *)
Definition mean2 (p q : f64) : f64 := div (add p q) (lit 2 0).
Lemma mean2_within (p q : f64) : finite64 p -> finite64 q -> 0 <= fval p <= 10000 -> 0 <= fval q <= 10000 ->
  S_float.within (mean2 p q) ((fval p + fval q) / 2) (dec 3 (-12)).
Proof.
  intros Fp Fq Hp Hq. destruct fl_two as [Fh Vh]. unfold mean2. set (w := lit 2 0 : f64) in *.
  assert (Ee : eta64 <= powerRZ 2 (-60)) by (unfold eta64; apply pow2_le; lia).
  assert (U : u64 = / 9007199254740992) by reflexivity.
  assert (E60 : powerRZ 2 (-60) = / 1152921504606846976) by (simpl; lra).
  assert (D : dec 3 (-12) = 3 / 1000000000000) by (unfold dec; simpl; lra).
  assert (Q1 : Rabs (fval p + fval q) <= 1000000) by (rewrite Rabs_pos_eq; lra).
  destruct (sf_add_near p q Fp Fq (small_big _ Q1)) as [Fs Es]. rewrite (Rabs_pos_eq (fval p + fval q)) in Es by lra.
  change (sf_add p q) with (add p q) in *. apply abs_le_of in Es.
  assert (W1 : u64 * (fval p + fval q) <= u64 * 20000) by (apply Rmult_le_compat_l; [rewrite U; lra|lra]).
  assert (Q2 : Rabs (fval (add p q) / fval w) <= 1000000).
  { rewrite Vh. rewrite U in *. apply Rabs_le. lra. }
  destruct (sf_div_near (add p q) w Fs Fh ltac:(rewrite Vh; lra) (small_big _ Q2)) as [Fm Em]. rewrite Vh in Em.
  change (sf_div (add p q) w) with (div (add p q) w) in *.
  split; [exact Fm|]. apply abs_le_of in Em.
  assert (W2 : u64 * Rabs (fval (add p q) / 2) <= u64 * 10001).
  { apply Rmult_le_compat_l; [rewrite U; lra|]. apply Rabs_le. rewrite U in *. lra. }
  apply Rabs_le. rewrite D. rewrite U in *. lra.
Qed.

(** what is needed of the equation of state *)
Record density64 (f : f64 -> f64 -> f64 -> res f64) (D : domain) (rho : R -> R -> R -> R) (d : R) : Prop := {
  dn_near : forall (s t p q : f64) vs vt vp vq, S_vert64.holds s (Fin vs) -> S_vert64.holds t (Fin vt) -> S_vert64.holds p (Fin vp) -> S_vert64.holds q (Fin vq) ->
    dS D vs -> dT D vt -> dP D vp -> dP D vq ->
    exists y : f64, f s t (mean2 p q) = Ok y /\ S_float.within y (rho vs vt ((vp + vq) / 2)) d /\ Rabs (rho vs vt ((vp + vq) / 2)) <= 1600;
  dn_s : forall t p : f64, f NAN t p = Ok NAN;
  dn_p : forall s t : f64, f s t NAN = Ok NAN }.

Lemma density_named name v s0 d grav rho_c zp pm : named_eos name v -> pair64 name s0 d -> coordinate64 grav rho_c zp pm ->
  exists f d', make_eos sdiv (AStr name) grav rho_c = Ok (F1 f) /\ density64 f (sea s0 pm) (at_depth zp v) d' /\ 0 <= d' /\ 2 * d' <= d.
Proof.
  intros Hn Hp Hco.
  assert (G : forall dd B, limits64 name s0 (dec 1 (-13)) dd B -> B <= 1600 -> 2 * dd <= d -> exists f d', make_eos sdiv (AStr name) grav rho_c = Ok (F1 f)
     /\ density64 f (sea s0 pm) (at_depth zp v) d' /\ 0 <= d' /\ 2 * d' <= d).
  { intros dd B HL HB Hd. destruct (entry_room name v s0 _ dd B grav rho_c zp pm Hn HL Hco) as (f & d' & Ef & [H0 H1 H2 H3 H4 H5 _ _ H8 _ _]).
    exists f, d'. split; [exact Ef|]. split; [|split; [exact H2|]].
    2:{ assert (0 <= u64 * (B + d') + eta64); [|lra]. pose proof u64_pos. pose proof eta64_pos. assert (0 <= u64 * (B + d')) by (apply Rmult_le_pos; lra). lra. }
    split; [|exact (make_nan_s name v s0 _ dd B grav rho_c f Hn HL Ef)|exact (make_nan_p name v s0 _ dd B grav rho_c f Hn HL Ef)].
    intros s t p q vs vt vp vq [Fs Vs] [Ft Vt] [Fp Vp] [Fq Vq] Ds Dt Dp Dq.
    assert (He : 0 <= dec 1 (-13)) by (unfold dec; simpl; lra).
    assert (Rp : 0 <= fval p <= 10000) by (cbn [sea box dP] in Dp; unfold upto in Dp; lra).
    assert (Rq : 0 <= fval q <= 10000) by (cbn [sea box dP] in Dq; unfold upto in Dq; lra).
    assert (Dm : dP (sea s0 pm) ((vp + vq) / 2)) by (cbn [sea box dP] in *; unfold upto in *; lra).
    destruct (H1 s t (mean2 p q) vs vt ((vp + vq) / 2) Ds Dt Dm) as (Hb & y & Ey & Wy).
    - rewrite <- Vs. apply within_self; assumption.
    - rewrite <- Vt. apply within_self; assumption.
    - rewrite <- Vp, <- Vq. apply mean2_within; assumption.
    - exists y. split; [exact Ey|]. split; [exact Wy|]. lra. }
  assert (E3 : dec 3 (-12) = 3 / 1000000000000) by (unfold dec; simpl; lra). assert (E6 : dec 6 (-12) = 6 / 1000000000000) by (unfold dec; simpl; lra).
  assert (E9 : dec 9 (-12) = 9 / 1000000000000) by (unfold dec; simpl; lra). assert (E18 : dec 18 (-12) = 18 / 1000000000000) by (unfold dec; simpl; lra).
  inversion Hp; subst.
  - apply (G (dec 3 (-12)) (dec 1100 0)); [constructor; constructor|unfold dec; simpl; lra|lra].
  - apply (G (dec 9 (-12)) (dec 1600 0)); [constructor; constructor|unfold dec; simpl; lra|lra].
Qed.

(** one pair *)
Section Pair.
  Variables (f : f64 -> f64 -> f64 -> res f64) (D : domain) (rho : R -> R -> R -> R) (d' d : R).
  Hypothesis Hf : density64 f D rho d'.
  Hypothesis Hd : 2 * d' <= d.
  Variables (S T P : list f64) (c' : S_vertsolve.column).
  Hypothesis Hh : holds_column (S, T, P) c'.
  Hypothesis HK : known_levels D c'.
  Variables (k : nat).
  Hypothesis Hk : (k + 1 < length (snd c'))%nat.
  Hypothesis HL : length (fst (fst c')) = length (snd c') /\ length (snd (fst c')) = length (snd c').

  Lemma level_get i : (i < length (snd c'))%nat -> exists s t p s' t' p', nth_error S i = Some s /\ nth_error T i = Some t /\ nth_error P i = Some p
    /\ nth_error (fst (fst c')) i = Some s' /\ nth_error (snd (fst c')) i = Some t' /\ nth_error (snd c') i = Some p'
    /\ S_vert64.holds s s' /\ S_vert64.holds t t' /\ S_vert64.holds p p'.
  Proof.
    intros Hi. destruct c' as [[S' T'] P'], Hh as (HS & HT & HP), HL as [L1 L2]. cbn [fst snd] in *.
    destruct (nth_error S' i) as [s'|] eqn:Es; [|apply nth_error_None in Es; lia]. destruct (nth_error T' i) as [t'|] eqn:Et; [|apply nth_error_None in Et; lia].
    destruct (nth_error P' i) as [p'|] eqn:Ep; [|apply nth_error_None in Ep; lia].
    destruct (holds_get S S' i s' HS Es) as (s & Gs & Hs). destruct (holds_get T T' i t' HT Et) as (t & Gt & Ht). destruct (holds_get P P' i p' HP Ep) as (p & Gp & Hp).
    exists s, t, p, s', t', p'. exact (conj Gs (conj Gt (conj Gp (conj eq_refl (conj eq_refl (conj eq_refl (conj Hs (conj Ht Hp)))))))).
  Qed.

  Lemma pair_test : exists b, unstable_fd f k (S, T, P) = Ok b
    /\ (b = true -> exists x, denser rho c' k x /\ - d <= x)
    /\ (forall x, denser rho c' k x -> d < x -> b = true)
    /\ (same_water (S, T, P) k -> b = true).
  Proof.
    destruct (level_get k ltac:(lia)) as (s & t & p & s' & t' & p' & Gs & Gt & Gp & Es & Et & Ep & Hs & Ht & Hp).
    destruct (level_get (k + 1) ltac:(lia)) as (s1 & t1 & p1 & s1' & t1' & p1' & Gs1 & Gt1 & Gp1 & Es1 & Et1 & Ep1 & Hs1 & Ht1 & Hp1).
    destruct (HK k _ _ _ Es Et Ep) as [KS KP]. destruct (HK (k + 1)%nat _ _ _ Es1 Et1 Ep1) as [KS1 KP1].
    unfold unstable_fd. rewrite (at0_nth _ _ _ Gs), (at0_nth _ _ _ Gs1), (at0_nth _ _ _ Gt), (at0_nth _ _ _ Gt1), (at0_nth _ _ _ Gp), (at0_nth _ _ _ Gp1).
    fold (mean2 p p1).
    assert (HN : forall r, S_vert64.holds r NaN -> r = NAN) by (intros r Hr; exact Hr).
    (* a missing datum *)
    assert (No : forall (r1 r2 : res f64), f s t (mean2 p p1) = r1 -> f s1 t1 (mean2 p p1) = r2 -> (exists y, r1 = Ok y) -> (exists y, r2 = Ok y) ->
      (r1 = Ok NAN \/ r2 = Ok NAN) -> (s' = NaN \/ p' = NaN \/ s1' = NaN \/ p1' = NaN) ->
      exists b, (let! r1 := f s t (mean2 p p1) in let! r2 := f s1 t1 (mean2 p p1) in Ok (leb r2 r1)) = Ok b
       /\ (b = true -> exists x, denser rho c' k x /\ - d <= x) /\ (forall x, denser rho c' k x -> d < x -> b = true) /\ (same_water (S, T, P) k -> b = true)).
    { intros r1 r2 -> -> [y1 ->] [y2 ->] HZ HM. exists false. cbn [bind]. split; [|split; [discriminate|split]].
      - f_equal. destruct HZ as [E|E]; injection E as ->; [destruct y2|]; reflexivity.
      - intros x (a1 & a2 & a3 & a4 & a5 & a6 & (L1 & L2 & L3) & (L4 & L5 & L6) & _) _. destruct HM as [-> | [-> | [-> | ->]]]; congruence.
      - intros (a1 & a2 & a3 & a4 & F1 & F2 & F3 & F4 & L1 & L2 & L3 & L4 & L5 & L6). cbn [fst snd] in *.
        assert (a1 = s) by congruence. assert (a1 = s1) by congruence. assert (a3 = p) by congruence. assert (a4 = p1) by congruence.
        exfalso. assert (FN : finite64 NAN -> False) by (intros FN; exact FN).
        destruct HM as [-> | [-> | [-> | ->]]]; apply FN; [rewrite <- (HN _ Hs)|rewrite <- (HN _ Hp)|rewrite <- (HN _ Hs1)|rewrite <- (HN _ Hp1)]; congruence. }
    destruct KP as [-> | (q & -> & Dq)].
    { apply HN in Hp. subst p. assert (Em : mean2 NAN p1 = NAN) by reflexivity.
      apply (No (Ok NAN) (Ok NAN)); [rewrite Em; apply (dn_p _ _ _ _ Hf)|rewrite Em; apply (dn_p _ _ _ _ Hf)|eauto|eauto|auto|auto]. }
    destruct KP1 as [-> | (q1 & -> & Dq1)].
    { apply HN in Hp1. subst p1. assert (Em : mean2 p NAN = NAN) by (unfold mean2; rewrite add_nan_r; reflexivity).
      apply (No (Ok NAN) (Ok NAN)); [rewrite Em; apply (dn_p _ _ _ _ Hf)|rewrite Em; apply (dn_p _ _ _ _ Hf)|eauto|eauto|auto|auto]. }
    assert (Tot : forall u w u' w', S_vert64.holds u u' -> S_vert64.holds w w' -> (u' = NaN \/ exists a b, u' = Fin a /\ w' = Fin b /\ dS D a /\ dT D b) ->
      exists y, f u w (mean2 p p1) = Ok y).
    { intros u w u' w' Hu Hw [-> | (a & b & -> & -> & Da & Db)].
      - apply HN in Hu. subst u. eexists. apply (dn_s _ _ _ _ Hf).
      - destruct (dn_near _ _ _ _ Hf u w p p1 a b q q1 Hu Hw Hp Hp1 Da Db Dq Dq1) as (y & Ey & _). exists y. exact Ey. }
    destruct (Tot s t s' t' Hs Ht KS) as (y & Ey). destruct (Tot s1 t1 s1' t1' Hs1 Ht1 KS1) as (y1 & Ey1).
    destruct KS as [-> | (a & b & -> & -> & Da & Db)].
    { apply (No (Ok y) (Ok y1) Ey Ey1); [eauto|eauto| |auto]. left. apply HN in Hs. subst s. rewrite <- Ey. apply (dn_s _ _ _ _ Hf). }
    destruct KS1 as [-> | (a1 & b1 & -> & -> & Da1 & Db1)].
    { apply (No (Ok y) (Ok y1) Ey Ey1); [eauto|eauto| |auto]. right. apply HN in Hs1. subst s1. rewrite <- Ey1. apply (dn_s _ _ _ _ Hf). }
    destruct (dn_near _ _ _ _ Hf s t p p1 a b q q1 Hs Ht Hp Hp1 Da Db Dq Dq1) as (z & Ez & [Fz Wz] & _).
    destruct (dn_near _ _ _ _ Hf s1 t1 p p1 a1 b1 q q1 Hs1 Ht1 Hp Hp1 Da1 Db1 Dq Dq1) as (z1 & Ez1 & [Fz1 Wz1] & _).
    rewrite Ez, Ez1. cbn [bind]. exists (leb z1 z). split; [reflexivity|].
    change (leb z1 z) with (SFleb z1 z). rewrite (leb_val z1 z Fz1 Fz). apply abs_le_of in Wz. apply abs_le_of in Wz1.
    set (m := (q + q1) / 2) in *. split; [|split].
    - intros E. exists (rho a b m - rho a1 b1 m). split.
      + exists a, b, q, a1, b1, q1. split; [split; [exact Es|split; [exact Et|exact Ep]]|]. split; [split; [exact Es1|split; [exact Et1|exact Ep1]]|reflexivity].
      + revert E. destruct (Rle_bool_spec (fval z1) (fval z)); [intros _|discriminate]. lra.
    - intros x (c1 & c2 & c3 & c4 & c5 & c6 & (L1 & L2 & L3) & (L4 & L5 & L6) & ->) Hx.
      assert (c1 = a) by congruence. assert (c2 = b) by congruence. assert (c3 = q) by congruence.
      assert (c4 = a1) by congruence. assert (c5 = b1) by congruence. assert (c6 = q1) by congruence. subst.
      fold m in Hx. apply Rle_bool_true. lra.
    - intros (c1 & c2 & c3 & c4 & _ & _ & _ & _ & L1 & L2 & L3 & L4 & L5 & L6). cbn [fst snd] in *.
      assert (s1 = s) by congruence. assert (t1 = t) by congruence. subst s1 t1. assert (z1 = z) by congruence. subst z1.
      apply Rle_bool_true. lra.
  Qed.
End Pair.

Definition counted (f : f64 -> f64 -> f64 -> res f64) (k : nat) (x : list f64 * list f64 * list f64) : Prop := unstable_fd f k x = Ok true.

Lemma cast_column (S T P : @data f64) v s1 n s2 c h1 h2 s t p : water_columns S T P v s1 n s2 c -> valid s1 h1 -> valid s2 h2 ->
  cast_at (at_ (arr S)) n h1 h2 s -> cast_at (at_ (arr T)) n h1 h2 t -> cast_at (Px S P s1) n h1 h2 p -> (s, t, p) = c (h1 ++ h2).
Proof.
  intros Hw V1 V2 Cs Ct Cp. pose proof Hw as [[WS SS] [WT ST] Hn [Hv Hv'] [WP HP] Hc]. destruct (Hc h1 h2 V1 V2) as [C1 C2].
  destruct (c (h1 ++ h2)) as [[cs ct] cp] eqn:Ech. cbn [fst snd] in C1, C2.
  assert (C3 : p = cp).
  { destruct HP as [[E HP]|[E HP]].
    - unfold Px in Cp. assert (Nat.eqb (ndim (arr P)) (ndim (arr S)) = true) as En by (apply Nat.eqb_eq; unfold ndim; rewrite E, SS; reflexivity).
      rewrite En in Cp. specialize (HP h1 h2 V1 V2). rewrite Ech in HP. exact (cast_at_unique _ _ _ _ _ _ Cp HP).
    - specialize (HP (h1 ++ h2) (valid_app _ _ _ _ V1 V2)). rewrite Ech in HP. cbn [snd] in HP. subst cp. unfold Px in Cp.
      destruct Cp as [L3 H3]. unfold wf in WP. rewrite E in WP. cbn [prod] in WP.
      apply nth_error_ext. intros j. destruct (Nat.lt_ge_cases j n) as [Hj|Hj].
      + rewrite H3 by exact Hj. destruct (Nat.eqb (ndim (arr P)) (ndim (arr S))) eqn:En.
        * apply Nat.eqb_eq in En. unfold ndim in En. rewrite E, SS, app_length in En. cbn [length] in En.
          assert (s1 = []) as -> by (destruct s1; [reflexivity|cbn in En; lia]).
          assert (s2 = []) as -> by (destruct s2; [reflexivity|cbn in En; lia]).
          apply valid_length in V1, V2. destruct h1; [|discriminate]. destruct h2; [|discriminate].
          unfold at_. rewrite E. cbn [app ravel prod]. f_equal. lia.
        * apply valid_length in V1. rewrite <- V1, nth_app_mid. unfold at_. rewrite E. cbn [ravel prod]. f_equal. lia.
      + rewrite (proj2 (nth_error_None _ j)), (proj2 (nth_error_None _ j)) by lia. reflexivity. }
  rewrite (cast_at_unique _ _ _ _ _ _ Cs C1), (cast_at_unique _ _ _ _ _ _ Ct C2), C3. reflexivity.
Qed.

Lemma count_columns (f : f64 -> f64 -> f64 -> res f64) (S T P : @data f64) v s1 n s2 c : water_columns S T P v s1 n s2 c ->
  (forall h k, valid (s1 ++ s2) h -> (k + 1 < n)%nat -> exists b, unstable_fd f k (c h) = Ok b) ->
  exists m, count_unstable S T P None (Some f) None v = Ok m
    /\ number_of (fun x => let '(h1, h2, k) := x in valid s1 h1 /\ valid s2 h2 /\ (k + 1 < n)%nat /\ counted f k (c (h1 ++ h2))) m.
Proof.
  intros Hw Hb. pose proof Hw as [[WS SS] [WT ST] Hn [Hv Hv'] [WP HP] Hc].
  assert (SP : shape (arr P) = s1 ++ n :: s2 \/ shape (arr P) = [n]) by (destruct HP as [[E _]|[E _]]; [left|right]; exact E).
  apply (count_whole S T P v s1 s2 n WS WT WP SS ST SP (vertical_process _ _ _ Hv) None (Some f) None (unstable_fd f) (fun h1 h2 k => counted f k (c (h1 ++ h2)))).
  { exists f. split; reflexivity. }
  intros h1 h2 k s t p V1 V2 Hk Cs Ct Cp.
  assert (E : (s, t, p) = c (h1 ++ h2)) by (eapply cast_column; eassumption).
  rewrite E. destruct (Hb (h1 ++ h2) k (valid_app _ _ _ _ V1 V2) Hk) as (b & Eb). exists b. split; [exact Eb|]. unfold counted. rewrite Eb.
  split; [intros ->; reflexivity|intros E'; injection E' as ->; reflexivity].
Qed.

Lemma count64 : forall name rho s0 d grav rho_c zp pm, named_eos name rho -> pair64 name s0 d -> coordinate64 grav rho_c zp pm ->
  forall S T P v s1 n s2 c c', water_columns S T P v s1 n s2 c ->
  (forall h, valid (s1 ++ s2) h -> holds_column (c h) (c' h) /\ known_levels (sea s0 pm) (c' h)) ->
  forall f, make_eos sdiv (AStr name) grav rho_c = Ok (F1 f) ->
  exists m (U : list nat -> nat -> Prop), count_unstable S T P None (Some f) None v = Ok m
    /\ number_of (fun x => let '(h1, h2, k) := x in valid s1 h1 /\ valid s2 h2 /\ (k + 1 < n)%nat /\ U (h1 ++ h2) k) m
    /\ forall h k, valid (s1 ++ s2) h -> (k + 1 < n)%nat ->
         (U h k -> exists x, denser (at_depth zp rho) (c' h) k x /\ - d <= x)
         /\ (forall x, denser (at_depth zp rho) (c' h) k x -> d < x -> U h k)
         /\ (same_water (c h) k -> U h k).
Proof.
  intros name rho s0 d grav rho_c zp pm Hn Hp Hco S T P v s1 n s2 c c' Hw Hc f Ef.
  destruct (density_named name rho s0 d grav rho_c zp pm Hn Hp Hco) as (f' & d' & Ef' & Hf & Hd0 & Hd).
  assert (f' = f) by congruence. subst f'.
  assert (HT : forall h k, valid (s1 ++ s2) h -> (k + 1 < n)%nat -> exists b, unstable_fd f k (c h) = Ok b
    /\ (b = true -> exists x, denser (at_depth zp rho) (c' h) k x /\ - d <= x) /\ (forall x, denser (at_depth zp rho) (c' h) k x -> d < x -> b = true)
    /\ (same_water (c h) k -> b = true)).
  { intros h k V Hk. destruct (Hc h V) as [Hh HK]. destruct (columns_lengths _ _ _ _ _ _ _ _ _ _ Hw V Hh) as (Ln & HL).
    assert (LL : length (snd (c' h)) = n).
    { rewrite <- (proj1 HL). destruct (c h) as [[sa ta] pa], (c' h) as [[sb tb] pb], Hh as (HS & _). cbn [fst snd] in *. rewrite <- (holds_length _ _ HS). exact Ln. }
    rewrite <- LL in Hk. destruct (c h) as [[sa ta] pa].
    exact (pair_test f _ _ d' d Hf Hd sa ta pa (c' h) Hh HK k Hk HL). }
  destruct (count_columns f S T P v s1 n s2 c Hw) as (m & Em & Hm).
  { intros h k V Hk. destruct (HT h k V Hk) as (b & Eb & _). exists b. exact Eb. }
  exists m, (fun h k => counted f k (c h)). split; [exact Em|]. split; [exact Hm|].
  intros h k V Hk. destruct (HT h k V Hk) as (b & Eb & H1 & H2 & H3). unfold counted. rewrite Eb. split; [|split].
  - intros E. apply H1. congruence.
  - intros x Hx Hdx. f_equal. exact (H2 x Hx Hdx).
  - intros Hs. f_equal. exact (H3 Hs).
Qed.
