(** * The search for a bracket, in binary64 *)
From Coq Require Import ZArith Reals Bool SpecFloat Lia Lra Psatz.
From Flocq Require Import Core BinarySingleNaN Relative.
From Verif Require Import Num SF Res M_fzero S_float XRlemmas P_float P_fl P_brent64.
Open Scope R_scope.

#[local] Existing Instance P_float.prec_pos.
#[local] Existing Instance P_float.prec_max.

Definition least64 : R := powerRZ 2 (-1000).

Lemma eta_least : 1048576 * eta64 <= least64.
Proof.
  unfold least64, eta64. change (powerRZ 2 (-1000)) with (/ 2 ^ 1000). change (powerRZ 2 (-1075)) with (/ 2 ^ 1075).
  replace (2 ^ 1075) with (2 ^ 75 * 2 ^ 1000) by (rewrite <- pow_add; reflexivity).
  assert (P : 0 < 2 ^ 1000) by (apply pow_lt; lra). rewrite Rinv_mult, <- Rmult_assoc.
  rewrite <- (Rmult_1_l (/ 2 ^ 1000)) at 2. apply Rmult_le_compat_r; [left; apply Rinv_0_lt_compat; exact P|]. 
  assert (Q : 1048576 <= 2 ^ 75) by (apply Rle_trans with (2 ^ 20); [lra|apply Rle_pow; [lra|lia]]).
  apply Rmult_le_reg_r with (2 ^ 75); [lra|]. rewrite Rmult_assoc, Rinv_l by lra. lra.
Qed.

Lemma least_pos : 0 < least64.
Proof. apply powerRZ_lt. lra. Qed.

Lemma fl_fifty : finite64 (lit 50 0 : f64) /\ fval (lit 50 0 : f64) = 50.
Proof. const64 7036874417766400%positive (-47)%Z. Qed.

Definition growth64 : f64 := lit 1414213562373095 (-15).
Lemma fl_growth : finite64 growth64 /\ 1.4142 <= fval growth64 <= 1.4143.
Proof.
  assert (E : growth64 = S754_finite false 6369051672525772 (-52)) by (vm_compute; reflexivity).
  rewrite E. split; [split; [reflexivity|split; [lia|right; lia]]|]. rewrite fval_neg. change (2 ^ 52)%Z with 4503599627370496%Z. lra.
Qed.

Lemma pow12 : 50.1 < 1.41 ^ 12.
Proof. lra. Qed.

Lemma pow141 k : 1.41 ^ k <= 50.1 -> (k < 12)%nat.
Proof.
  intros H. destruct (le_lt_dec 12 k) as [L|L]; [|exact L]. exfalso.
  assert (1.41 ^ 12 <= 1.41 ^ k) by (apply Rle_pow; [lra|exact L]). pose proof pow12. lra.
Qed.

(** the first distance *)
Lemma fifty_ok (D : f64) w : near D w -> least64 <= w <= 2 * lim9 ->
  sdiv D (lit 50 0) = Ok (sf_div D (lit 50 0 : f64)) /\ finite64 (sf_div D (lit 50 0 : f64)) /\
  w / 50.1 <= fval (sf_div D (lit 50 0 : f64)) <= w.
Proof.
  intros [FD HD] [W1 W2]. destruct fl_fifty as [F5 E5]. pose proof eta_least as El. pose proof least_pos as Lp.
  destruct lim9_big as [B1 B2]. pose proof eta64_pos as Ep.
  rewrite (Rabs_pos_eq w) in HD by lra. apply Rabs_le_inv in HD. unfold u64 in HD.
  split; [apply sdiv_ok; [exact F5|rewrite E5; lra]|].
  destruct (sf_div_near D (lit 50 0 : f64) FD F5) as [FQ HQ].
  - rewrite E5. lra.
  - rewrite E5. rewrite Rabs_pos_eq by lra. lra.
  - split; [exact FQ|]. rewrite E5 in HQ. rewrite (Rabs_pos_eq (fval D / 50)) in HQ by lra. apply Rabs_le_inv in HQ.
    unfold u64 in HQ. lra.
Qed.

(** the growth of the distance *)
Lemma grow_ok (d : f64) w k : finite64 d -> least64 <= w <= 2 * lim9 -> w / 50.1 * 1.41 ^ k <= fval d <= w ->
  finite64 (sf_mul d growth64) /\ w / 50.1 * 1.41 ^ S k <= fval (sf_mul d growth64) <= 1.5 * w /\ 0 <= fval (sf_mul d growth64).
Proof.
  intros Fd [W1 W2] [H1 H2]. destruct fl_growth as [Fg [G1 G2]]. pose proof eta_least as El. pose proof least_pos as Lp.
  destruct lim9_big as [B1 B2]. pose proof eta64_pos as Ep.
  assert (Pk : 1 <= 1.41 ^ k) by (apply pow_R1_Rle; lra).
  assert (Q0 : w / 50.1 <= fval d) by nra.
  assert (P : 0 <= fval d * fval growth64 <= 1.4143 * w) by nra.
  destruct (sf_mul_near d growth64 Fd Fg) as [Fm Hm].
  { rewrite Rabs_pos_eq by lra. lra. }
  split; [exact Fm|]. rewrite (Rabs_pos_eq (fval d * fval growth64)) in Hm by lra. apply Rabs_le_inv in Hm. unfold u64 in Hm.
  assert (G : 1.4142 * fval d <= fval d * fval growth64) by nra.
  assert (L : 1.41 * fval d <= fval (sf_mul d growth64)) by lra.
  split; [split|].
  - change (1.41 ^ S k) with (1.41 * 1.41 ^ k). nra.
  - lra.
  - lra.
Qed.

Section Gtb.
  Variable f : f64 -> res f64.
  Variables A B x : f64.
  Hypotheses (FA : finite64 A) (FB : finite64 B) (Fx : finite64 x) (HX : fval A <= fval x <= fval B).
  Hypotheses (LA : Rabs (fval A) <= lim9) (LB : Rabs (fval B) <= lim9).
  Hypothesis XA : fval x = fval A \/ least64 <= fval x - fval A.
  Hypothesis XB : fval x = fval B \/ least64 <= fval B - fval x.
  Hypothesis Hf : forall x, finite64 x -> fval A <= fval x <= fval B -> exists y, f x = Ok y /\ finite64 y.

  Definition sign_at (a : f64) (v : bool) : Prop := exists fa, f a = Ok fa /\ finite64 fa /\ v = Rlt_bool 0 (fval fa).

  Definition flag (o : option bool) (a : f64) : Prop := match o with Some v => sign_at a v | None => True end.

  Definition ginv (k : nat) (st : @gstate f64) : Prop :=
    let '(mkG a b dxm dxp fapos fbpos) := st in
    finite64 a /\ finite64 b /\ fval A <= fval a <= fval x /\ fval x <= fval b <= fval B
    /\ (fval A < fval a -> finite64 dxm /\ (fval x - fval A) / 50.1 * 1.41 ^ k <= fval dxm <= fval x - fval A /\ fbpos <> None)
    /\ (fval b < fval B -> finite64 dxp /\ (fval B - fval x) / 50.1 * 1.41 ^ k <= fval dxp <= fval B - fval x)
    /\ (fval a = fval A -> fapos <> None) /\ (fval a = fval A -> fval b = fval B -> fbpos <> None)
    /\ flag fapos a /\ flag fbpos b.

  Definition gres (r : f64 * f64) : Prop :=
    (exists a b va, r = (a, b) /\ finite64 a /\ finite64 b /\ fval A <= fval a <= fval x /\ fval x <= fval b <= fval B
       /\ sign_at a va /\ sign_at b (negb va))
    \/ (r = (nan, nan) /\ exists a b va, finite64 a /\ finite64 b /\ fval a = fval A /\ fval b = fval B /\ sign_at a va /\ sign_at b va).

  Lemma fmax64 (a b : f64) : finite64 a -> finite64 b -> finite64 (fmax a b) /\ fval (fmax a b) = Rmax (fval a) (fval b).
  Proof.
    intros Fa Fb. unfold fmax. change (ltb a b) with (SFltb a b). rewrite ltb_val by assumption.
    destruct (Rlt_bool_spec (fval a) (fval b)).
    - split; [exact Fb|]. symmetry. apply Rmax_right. lra.
    - split; [exact Fa|]. symmetry. apply Rmax_left. lra.
  Qed.
  Lemma fmin64 (a b : f64) : finite64 a -> finite64 b -> finite64 (fmin a b) /\ fval (fmin a b) = Rmin (fval a) (fval b).
  Proof.
    intros Fa Fb. unfold fmin. change (ltb b a) with (SFltb b a). rewrite ltb_val by assumption.
    destruct (Rlt_bool_spec (fval b) (fval a)).
    - split; [exact Fb|]. symmetry. apply Rmin_right. lra.
    - split; [exact Fa|]. symmetry. apply Rmin_left. lra.
  Qed.

  Lemma sign_ok a : finite64 a -> fval A <= fval a <= fval B ->
    exists fa, f a = Ok fa /\ sign_at a (SFltb (lit 0 0 : f64) fa).
  Proof.
    intros Fa Ha. destruct (Hf a Fa Ha) as (fa & E & Ffa). exists fa. split; [exact E|]. exists fa. split; [exact E|]. split; [exact Ffa|].
    destruct fl_zero as [Fz Ez]. rewrite ltb_val, Ez by assumption. reflexivity.
  Qed.

  Lemma xA_bound : fval x - fval A <= 2 * lim9.
  Proof. apply Rabs_le_inv in LA. apply Rabs_le_inv in LB. lra. Qed.
  Lemma xB_bound : fval B - fval x <= 2 * lim9.
  Proof. apply Rabs_le_inv in LA. apply Rabs_le_inv in LB. lra. Qed.

  (** moving left *)
  Lemma move_left (d : f64) k : finite64 d -> least64 <= fval x - fval A ->
    (fval x - fval A) / 50.1 * 1.41 ^ k <= fval d <= fval x - fval A ->
    let d' := sf_mul d growth64 in let a := fmax (sf_sub x d') A in
    finite64 a /\ fval A <= fval a <= fval x /\ finite64 d' /\
    (fval A < fval a -> (fval x - fval A) / 50.1 * 1.41 ^ S k <= fval d' <= fval x - fval A).
  Proof.
    intros Fd W H d' a. pose proof xA_bound as XU. destruct lim9_big as [B1 B2].
    destruct (grow_ok d (fval x - fval A) k Fd ltac:(lra) H) as (Fd' & [G1 G2] & G3). fold d' in Fd', G1, G2, G3.
    assert (LX : Rabs (fval x) <= lim9) by (apply Rabs_le_inv in LA; apply Rabs_le_inv in LB; apply Rabs_le; lra).
    destruct (sub_val x d' Fx Fd') as [Fs Es].
    { apply rnd_small. apply Rabs_le_inv in LX. apply Rabs_le. lra. }
    destruct (fmax64 _ A Fs FA) as [Fa Ea]. fold a in Fa, Ea. rewrite Es in Ea.
    pose proof (rnd_le_fval (fval x - fval d') x Fx ltac:(lra)) as U.
    split; [exact Fa|]. split; [split|split].
    - rewrite Ea. apply Rmax_r.
    - rewrite Ea. apply Rmax_lub; lra.
    - exact Fd'.
    - intros L. split; [exact G1|]. apply Rnot_lt_le. intro C.
      pose proof (rnd_le_fval (fval x - fval d') A FA ltac:(lra)) as V. rewrite Ea, Rmax_right in L by exact V. lra.
  Qed.

  (** moving right *)
  Lemma move_right (d : f64) k : finite64 d -> least64 <= fval B - fval x ->
    (fval B - fval x) / 50.1 * 1.41 ^ k <= fval d <= fval B - fval x ->
    let d' := sf_mul d growth64 in let b := fmin (sf_add x d') B in
    finite64 b /\ fval x <= fval b <= fval B /\ finite64 d' /\
    (fval b < fval B -> (fval B - fval x) / 50.1 * 1.41 ^ S k <= fval d' <= fval B - fval x).
  Proof.
    intros Fd W H d' b. pose proof xB_bound as XU. destruct lim9_big as [B1 B2].
    destruct (grow_ok d (fval B - fval x) k Fd ltac:(lra) H) as (Fd' & [G1 G2] & G3). fold d' in Fd', G1, G2, G3.
    assert (LX : Rabs (fval x) <= lim9) by (apply Rabs_le_inv in LA; apply Rabs_le_inv in LB; apply Rabs_le; lra).
    destruct (add_val x d' Fx Fd') as [Fs Es].
    { apply rnd_small. apply Rabs_le_inv in LX. apply Rabs_le. lra. }
    destruct (fmin64 _ B Fs FB) as [Fb Eb]. fold b in Fb, Eb. rewrite Es in Eb.
    pose proof (fval_le_rnd (fval x + fval d') x Fx ltac:(lra)) as U.
    split; [exact Fb|]. split; [split|split].
    - rewrite Eb. apply Rmin_glb; lra.
    - rewrite Eb. apply Rmin_r.
    - exact Fd'.
    - intros L. split; [exact G1|]. apply Rnot_lt_le. intro C.
      pose proof (fval_le_rnd (fval x + fval d') B FB ltac:(lra)) as V. rewrite Eb, Rmin_right in L by exact V. lra.
  Qed.

  Lemma xorb_true v w : xorb v w = true -> w = negb v.
  Proof. destruct v, w; intros H; try discriminate H; reflexivity. Qed.
  Lemma xorb_false v w : xorb v w = false -> w = v.
  Proof. destruct v, w; intros H; try discriminate H; reflexivity. Qed.

  (** the second half *)
  Lemma right_ok k (a b dxm dxp : f64) va fbpos :
    finite64 a -> finite64 b -> fval A <= fval a <= fval x -> fval x <= fval b <= fval B -> sign_at a va ->
    (fval A < fval a -> finite64 dxm /\ (fval x - fval A) / 50.1 * 1.41 ^ S k <= fval dxm <= fval x - fval A) ->
    (fval b < fval B -> finite64 dxp /\ (fval B - fval x) / 50.1 * 1.41 ^ k <= fval dxp <= fval B - fval x) ->
    (fval b = fval B -> fbpos <> None) -> flag fbpos b ->
    (exists r', gtb_right f x A B (mkG a b dxm dxp (Some va) fbpos) = Ok (inr r') /\ gres r') \/
    (exists st', gtb_right f x A B (mkG a b dxm dxp (Some va) fbpos) = Ok (inl st') /\ ginv (S k) st').
  Proof.
    intros Fa Fb Ha Hb Sa Hm Hp Hn Sb. unfold gtb_right.
    change (ltb b B) with (SFltb b B). rewrite ltb_val by assumption.
    destruct (Rlt_bool_spec (fval b) (fval B)) as [L|L].
    - destruct (Hp L) as [Fp Bp]. assert (W : least64 <= fval B - fval x) by (destruct XB as [E|W]; [lra|exact W]).
      pose proof (move_right dxp k Fp W Bp) as MR. cbv zeta in MR.
      change (mul dxp (lit 1414213562373095 (-15))) with (sf_mul dxp growth64). change (add x (sf_mul dxp growth64)) with (sf_add x (sf_mul dxp growth64)).
      set (d' := sf_mul dxp growth64) in *. set (b' := fmin (sf_add x d') B) in *. clearbody d' b'.
      destruct MR as (Fb' & Hb' & Fd' & HL).
      destruct (sign_ok b' Fb' ltac:(lra)) as (fb & E & Sb'). rewrite E. cbn [bind].
      change (ltb (lit 0 0) fb) with (SFltb (lit 0 0 : f64) fb). set (vb := SFltb (lit 0 0 : f64) fb) in *. clearbody vb.
      cbn [differ bind]. destruct (xorb va vb) eqn:EX.
      + left. eexists. split; [reflexivity|]. left. exists a, b', va. apply xorb_true in EX. subst vb.
        split; [reflexivity|]. split; [exact Fa|]. split; [exact Fb'|]. split; [exact Ha|]. split; [exact Hb'|]. split; assumption.
      + right. eexists. split; [reflexivity|]. split; [exact Fa|]. split; [exact Fb'|]. split; [exact Ha|]. split; [exact Hb'|].
        split. { intros LL. destruct (Hm LL) as [H1 H2]. split; [exact H1|]. split; [exact H2|discriminate]. }
        split. { intros LL. split; [exact Fd'|exact (HL LL)]. }
        split; [discriminate|]. split; [discriminate|]. split; assumption.
    - assert (EB : fval b = fval B) by lra. specialize (Hn EB). destruct fbpos as [vb|]; [|elim Hn; reflexivity]. cbn [flag] in Sb.
      change (eqb a A) with (SFeqb a A). rewrite eqb_val by assumption. destruct (Req_bool_spec (fval a) (fval A)) as [EA|NA].
      + left. cbn [differ bind]. eexists. split; [reflexivity|]. destruct (xorb va vb) eqn:EX.
        * left. exists a, b, va. apply xorb_true in EX. subst vb.
          split; [reflexivity|]. split; [exact Fa|]. split; [exact Fb|]. split; [exact Ha|]. split; [exact Hb|]. split; assumption.
        * right. split; [reflexivity|]. apply xorb_false in EX. subst vb. exists a, b, va.
          split; [exact Fa|]. split; [exact Fb|]. split; [exact EA|]. split; [exact EB|]. split; assumption.
      + right. eexists. split; [reflexivity|]. split; [exact Fa|]. split; [exact Fb|]. split; [exact Ha|]. split; [exact Hb|].
        split. { intros LL. destruct (Hm LL) as [H1 H2]. split; [exact H1|]. split; [exact H2|discriminate]. }
        split. { intros LL. lra. }
        split; [discriminate|]. split; [discriminate|]. split; assumption.
  Qed.

  Lemma gtb_body_ok k st : ginv k st ->
    (exists r, gtb_body f x A B st = Ok (inr r) /\ gres r) \/
    ((k < 12)%nat /\ exists st', gtb_body f x A B st = Ok (inl st') /\ ginv (S k) st').
  Proof.
    destruct st as [a b dxm dxp fapos fbpos]. unfold ginv. intros (Fa & Fb & Ha & Hb & Hm & Hp & Na & Nb & Sa & Sb).
    assert (KL : least64 <= fval x - fval A -> (fval x - fval A) / 50.1 * 1.41 ^ k <= fval x - fval A -> (k < 12)%nat).
    { intros W H. apply pow141. pose proof least_pos. apply Rmult_le_reg_l with ((fval x - fval A) / 50.1); [lra|]. lra. }
    assert (KR : least64 <= fval B - fval x -> (fval B - fval x) / 50.1 * 1.41 ^ k <= fval B - fval x -> (k < 12)%nat).
    { intros W H. apply pow141. pose proof least_pos. apply Rmult_le_reg_l with ((fval B - fval x) / 50.1); [lra|]. lra. }
    unfold gtb_body, gtb_left. change (ltb A a) with (SFltb A a). rewrite ltb_val by assumption.
    destruct (Rlt_bool_spec (fval A) (fval a)) as [L|L].
    - destruct (Hm L) as (Fm & Bm & NB). destruct fbpos as [vb|]; [|elim NB; reflexivity]. cbn [flag] in Sb.
      assert (W : least64 <= fval x - fval A) by (destruct XA as [E|W]; [lra|exact W]).
      pose proof (move_left dxm k Fm W Bm) as ML. cbv zeta in ML.
      change (mul dxm (lit 1414213562373095 (-15))) with (sf_mul dxm growth64). change (sub x (sf_mul dxm growth64)) with (sf_sub x (sf_mul dxm growth64)).
      set (d' := sf_mul dxm growth64) in *. set (a' := fmax (sf_sub x d') A) in *. clearbody d' a'.
      destruct ML as (Fa' & Ha' & Fd' & HL).
      destruct (sign_ok a' Fa' ltac:(lra)) as (fa & E & Sa'). rewrite E. cbn [bind].
      change (ltb (lit 0 0) fa) with (SFltb (lit 0 0 : f64) fa). set (va := SFltb (lit 0 0 : f64) fa) in *. clearbody va.
      cbn [differ bind]. destruct (xorb va vb) eqn:EX; cbn [bind].
      + left. eexists. split; [reflexivity|]. left. exists a', b, va. apply xorb_true in EX. subst vb.
        split; [reflexivity|]. split; [exact Fa'|]. split; [exact Fb|]. split; [exact Ha'|]. split; [exact Hb|]. split; assumption.
      + destruct (right_ok k a' b d' dxp va (Some vb) Fa' Fb Ha' Hb Sa') as [(r & E' & Hr)|(st' & E' & Hs)].
        * intros LL. split; [exact Fd'|exact (HL LL)].
        * exact Hp.
        * discriminate.
        * exact Sb.
        * left. exists r. split; [exact E'|exact Hr].
        * right. split; [apply (KL W); lra|]. exists st'. split; [exact E'|exact Hs].
    - assert (EA : fval a = fval A) by lra. specialize (Na EA). destruct fapos as [va|]; [|elim Na; reflexivity]. cbn [flag] in Sa.
      change (eqb b B) with (SFeqb b B). rewrite eqb_val by assumption. destruct (Req_bool_spec (fval b) (fval B)) as [EB|NB].
      + specialize (Nb EA EB). destruct fbpos as [vb|]; [|elim Nb; reflexivity]. cbn [flag] in Sb.
        left. cbn [differ bind]. eexists. split; [reflexivity|]. destruct (xorb va vb) eqn:EX.
        * left. exists a, b, va. apply xorb_true in EX. subst vb.
          split; [reflexivity|]. split; [exact Fa|]. split; [exact Fb|]. split; [exact Ha|]. split; [exact Hb|]. split; assumption.
        * right. split; [reflexivity|]. apply xorb_false in EX. subst vb. exists a, b, va.
          split; [exact Fa|]. split; [exact Fb|]. split; [exact EA|]. split; [exact EB|]. split; assumption.
      + cbn [bind]. assert (LB' : fval b < fval B) by lra. destruct (Hp LB') as [Fp Bp].
        assert (W : least64 <= fval B - fval x) by (destruct XB as [E|W]; [lra|exact W]).
        destruct (right_ok k a b dxm dxp va fbpos Fa Fb Ha Hb Sa) as [(r & E' & Hr)|(st' & E' & Hs)].
        * intros LL. lra.
        * exact Hp.
        * intros EB. lra.
        * exact Sb.
        * left. exists r. split; [exact E'|exact Hr].
        * right. split; [apply (KR W); lra|]. exists st'. split; [exact E'|exact Hs].
  Qed.

  Lemma gtb_loop_ok : forall n k st, ginv k st -> (13 <= k + n)%nat -> (1 <= n)%nat ->
    exists r, loop n (gtb_body f x A B) st = Ok r /\ gres r.
  Proof.
    induction n as [|n IH]; intros k st Hi Hk Hn; [lia|]. cbn [loop].
    destruct (gtb_body_ok k st Hi) as [(r & E & Hr)|(Hk12 & st' & E & Hi')]; rewrite E; cbn [bind].
    - exists r. split; [reflexivity|exact Hr].
    - apply (IH (S k)); [exact Hi'|lia|lia].
  Qed.

  (** the state at the start of the loop *)
  Lemma dist_left : exists d : f64, sdiv (sf_sub x A) (lit 50 0) = Ok d /\ finite64 d /\
    (fval x = fval A -> fval d = 0) /\ (fval x <> fval A -> 0 < fval d /\ (fval x - fval A) / 50.1 <= fval d <= fval x - fval A).
  Proof.
    destruct lim9_big as [B1 B2]. pose proof xA_bound as XU. destruct fl_fifty as [F5 E5].
    destruct XA as [E|W].
    - destruct (sub_val x A Fx FA) as [Fs Es]; [apply rnd_small; rewrite E, Rminus_diag_eq, Rabs_R0 by reflexivity; lra|].
      rewrite E, Rminus_diag_eq, rnd_zero in Es by reflexivity.
      destruct (div_val _ (lit 50 0 : f64) Fs F5) as [Fd Ed].
      + rewrite E5. lra.
      + apply rnd_small. rewrite Es. unfold Rdiv. rewrite Rmult_0_l, Rabs_R0. lra.
      + eexists. split; [apply sdiv_ok; [exact F5|rewrite E5; lra]|]. split; [exact Fd|]. split.
        * intros _. rewrite Ed, Es. unfold Rdiv. rewrite Rmult_0_l. exact rnd_zero.
        * intros N. elim N. exact E.
    - pose proof least_pos as Lp.
      destruct (fifty_ok (sf_sub x A) (fval x - fval A)) as (E & Fd & Bd).
      + apply sf_sub_near; [exact Fx|exact FA|]. rewrite Rabs_pos_eq by lra. lra.
      + lra.
      + eexists. split; [exact E|]. split; [exact Fd|]. split; [intros EE; lra|]. intros _. split; [lra|exact Bd].
  Qed.
  Lemma dist_right : exists d : f64, sdiv (sf_sub B x) (lit 50 0) = Ok d /\ finite64 d /\
    (fval x = fval B -> fval d = 0) /\ (fval x <> fval B -> 0 < fval d /\ (fval B - fval x) / 50.1 <= fval d <= fval B - fval x).
  Proof.
    destruct lim9_big as [B1 B2]. pose proof xB_bound as XU. destruct fl_fifty as [F5 E5].
    destruct XB as [E|W].
    - destruct (sub_val B x FB Fx) as [Fs Es]; [apply rnd_small; rewrite E, Rminus_diag_eq, Rabs_R0 by reflexivity; lra|].
      rewrite E, Rminus_diag_eq, rnd_zero in Es by reflexivity.
      destruct (div_val _ (lit 50 0 : f64) Fs F5) as [Fd Ed].
      + rewrite E5. lra.
      + apply rnd_small. rewrite Es. unfold Rdiv. rewrite Rmult_0_l, Rabs_R0. lra.
      + eexists. split; [apply sdiv_ok; [exact F5|rewrite E5; lra]|]. split; [exact Fd|]. split.
        * intros _. rewrite Ed, Es. unfold Rdiv. rewrite Rmult_0_l. exact rnd_zero.
        * intros N. elim N. exact E.
    - pose proof least_pos as Lp.
      destruct (fifty_ok (sf_sub B x) (fval B - fval x)) as (E & Fd & Bd).
      + apply sf_sub_near; [exact FB|exact Fx|]. rewrite Rabs_pos_eq by lra. lra.
      + lra.
      + eexists. split; [exact E|]. split; [exact Fd|]. split; [intros EE; lra|]. intros _. split; [lra|exact Bd].
  Qed.

  Lemma start_ok (dxm dxp : f64) : sdiv (sf_sub x A) (lit 50 0) = Ok dxm -> sdiv (sf_sub B x) (lit 50 0) = Ok dxp ->
    exists st, (let a := if SFeqb dxm (lit 0 0 : f64) then A else x in
      let b := if SFeqb dxp (lit 0 0 : f64) then B else x in
      if SFltb A a then let! fb := f b in Ok (mkG a b dxm dxp None (Some (SFltb (lit 0 0 : f64) fb)))
      else if SFeqb b B then let! fa := f a in let! fb := f b in
             Ok (mkG a b dxm dxp (Some (SFltb (lit 0 0 : f64) fa)) (Some (SFltb (lit 0 0 : f64) fb)))
      else let! fa := f a in Ok (mkG a b dxm dxp (Some (SFltb (lit 0 0 : f64) fa)) None)) = Ok st /\ ginv 0 st.
  Proof.
    intros Em Ep. destruct dist_left as (dm & E1 & Fm & Zm & Pm). rewrite E1 in Em. injection Em as <-.
    destruct dist_right as (dp & E2 & Fp & Zp & Pp). rewrite E2 in Ep. injection Ep as <-.
    destruct fl_zero as [Fz E0]. cbv zeta. rewrite (eqb_val dm), (eqb_val dp), E0 by assumption.
    (* a *)
    assert (Ka : exists a, (if Req_bool (fval dm) 0 then A else x) = a /\ finite64 a /\ fval a = fval x /\ fval A <= fval a).
    { destruct (Req_bool_spec (fval dm) 0) as [Z|Z].
      - exists A. split; [reflexivity|]. split; [exact FA|]. split; [|lra].
        destruct (Req_dec (fval x) (fval A)) as [E|N]; [lra|]. destruct (Pm N). lra.
      - exists x. split; [reflexivity|]. split; [exact Fx|]. split; [reflexivity|lra]. }
    assert (Kb : exists b, (if Req_bool (fval dp) 0 then B else x) = b /\ finite64 b /\ fval b = fval x /\ fval b <= fval B).
    { destruct (Req_bool_spec (fval dp) 0) as [Z|Z].
      - exists B. split; [reflexivity|]. split; [exact FB|]. split; [|lra].
        destruct (Req_dec (fval x) (fval B)) as [E|N]; [lra|]. destruct (Pp N). lra.
      - exists x. split; [reflexivity|]. split; [exact Fx|]. split; [reflexivity|lra]. }
    destruct Ka as (a & -> & Fa & Ea & La). destruct Kb as (b & -> & Fb & Eb & Lb).
    rewrite ltb_val, eqb_val by assumption.
    destruct (sign_ok a Fa ltac:(lra)) as (fa & Efa & Sa). destruct (sign_ok b Fb ltac:(lra)) as (fb & Efb & Sb).
    rewrite Efa, Efb. cbn [bind].
    assert (GM : fval A < fval a -> finite64 dm /\ (fval x - fval A) / 50.1 * 1.41 ^ 0 <= fval dm <= fval x - fval A).
    { intros L. split; [exact Fm|]. destruct (Pm ltac:(lra)) as [_ H]. cbn [pow]. lra. }
    assert (GP : fval b < fval B -> finite64 dp /\ (fval B - fval x) / 50.1 * 1.41 ^ 0 <= fval dp <= fval B - fval x).
    { intros L. split; [exact Fp|]. destruct (Pp ltac:(lra)) as [_ H]. cbn [pow]. lra. }
    destruct (Rlt_bool_spec (fval A) (fval a)) as [L|L].
    - eexists. split; [reflexivity|]. unfold ginv. split; [exact Fa|]. split; [exact Fb|]. split; [lra|]. split; [lra|].
      split. { intros LL. destruct (GM LL) as [H1 H2]. split; [exact H1|]. split; [exact H2|discriminate]. }
      split; [exact GP|]. split; [intros H; lra|]. split; [discriminate|]. split; [exact I|exact Sb].
    - destruct (Req_bool_spec (fval b) (fval B)) as [EB|NB].
      + eexists. split; [reflexivity|]. unfold ginv. split; [exact Fa|]. split; [exact Fb|]. split; [lra|]. split; [lra|].
        split. { intros LL. lra. }
        split; [exact GP|]. split; [discriminate|]. split; [discriminate|]. split; [exact Sa|exact Sb].
      + eexists. split; [reflexivity|]. unfold ginv. split; [exact Fa|]. split; [exact Fb|]. split; [lra|]. split; [lra|].
        split. { intros LL. lra. }
        split; [exact GP|]. split; [discriminate|]. split; [intros _ H; lra|]. split; [exact Sa|exact I].
  Qed.
End Gtb.

(** ** the whole function *)
Section Whole.
  Variable f : f64 -> res f64.
  Variables A B x : f64.
  Hypotheses (FA : finite64 A) (FB : finite64 B) (Fx : finite64 x) (HAB : fval A <= fval B).
  Hypotheses (LA : Rabs (fval A) <= lim9) (LB : Rabs (fval B) <= lim9).
  Let y := Rmin (Rmax (fval x) (fval A)) (fval B).
  Hypothesis XA : y = fval A \/ least64 <= y - fval A.
  Hypothesis XB : y = fval B \/ least64 <= fval B - y.
  Hypothesis Hf : forall x, finite64 x -> fval A <= fval x <= fval B -> exists y, f x = Ok y /\ finite64 y.

  Lemma gtb_ok : exists r, (forall fuel, (13 <= fuel)%nat -> guess_to_bounds f fuel x A B = Ok r) /\
    ((r = (A, A) /\ exists v, f A = Ok v /\ fval v = 0) \/ (r = (B, B) /\ exists v, f B = Ok v /\ fval v = 0) \/
     (exists a b fa fb, r = (a, b) /\ finite64 a /\ finite64 b /\ fval A <= fval a <= y /\ y <= fval b <= fval B /\
        f a = Ok fa /\ f b = Ok fb /\ finite64 fa /\ finite64 fb /\ opposite64 fa fb) \/
     (r = (nan, nan) /\ exists a b fa fb, finite64 a /\ finite64 b /\ fval a = fval A /\ fval b = fval B /\
        f a = Ok fa /\ f b = Ok fb /\ ~ opposite64 fa fb)).
  Proof.
    destruct (Hf A FA ltac:(lra)) as (fA & EA & FfA). destruct (Hf B FB ltac:(lra)) as (fB & EB & FfB). destruct fl_zero as [Fz E0].
    destruct (Req_dec (fval fA) 0) as [ZA|ZA].
    { exists (A, A). split; [|left; split; [reflexivity|exists fA; split; assumption]]. intros fuel _. unfold guess_to_bounds. rewrite EA. cbn [bind].
      change (eqb fA (lit 0 0)) with (SFeqb fA (lit 0 0 : f64)). rewrite eqb_val, E0, Req_bool_true by assumption. reflexivity. }
    destruct (Req_dec (fval fB) 0) as [ZB|ZB].
    { exists (B, B). split; [|right; left; split; [reflexivity|exists fB; split; assumption]]. intros fuel _. unfold guess_to_bounds. rewrite EA, EB. cbn [bind].
      change (eqb fA (lit 0 0)) with (SFeqb fA (lit 0 0 : f64)). change (eqb fB (lit 0 0)) with (SFeqb fB (lit 0 0 : f64)).
      rewrite !eqb_val, E0 by assumption. rewrite Req_bool_false, Req_bool_true by assumption. reflexivity. }
    destruct (fmax64 x A Fx FA) as [F1 E1]. destruct (fmin64 (fmax x A) B F1 FB) as [F2 E2]. rewrite E1 in E2. fold y in E2.
    set (z := fmin (fmax x A) B) in *.
    assert (HZ : fval A <= fval z <= fval B).
    { rewrite E2. unfold y. split; [apply Rmin_glb; [apply Rmax_r|exact HAB]|apply Rmin_r]. }
    rewrite <- E2 in XA, XB.
    destruct (dist_left A B z FA F2 HZ LA LB XA) as (dm & Em & _). destruct (dist_right A B z FB F2 HZ LA LB XB) as (dp & Ep & _).
    destruct (start_ok f A B z FA FB F2 HZ LA LB XA XB Hf dm dp Em Ep) as (st & Est & Hst).
    destruct (gtb_loop_ok f A B z FA FB F2 HZ LA LB XA XB Hf 13 0 st Hst ltac:(lia) ltac:(lia)) as (r & Er & Hr).
    exists r. split.
    - intros fuel Hn. unfold guess_to_bounds. rewrite EA, EB. cbn [bind].
      change (eqb fA (lit 0 0)) with (SFeqb fA (lit 0 0 : f64)). change (eqb fB (lit 0 0)) with (SFeqb fB (lit 0 0 : f64)).
      rewrite !eqb_val, E0 by assumption. rewrite !Req_bool_false by assumption. fold z.
      change (sub B z) with (sf_sub B z). change (sub z A) with (sf_sub z A). rewrite Em, Ep. cbn [bind].
      match goal with |- bind ?X _ = _ => change X with (let a := if SFeqb dm (lit 0 0 : f64) then A else z in
        let b := if SFeqb dp (lit 0 0 : f64) then B else z in
        if SFltb A a then let! fb := f b in Ok (mkG a b dm dp None (Some (SFltb (lit 0 0 : f64) fb)))
        else if SFeqb b B then let! fa := f a in let! fb := f b in
             Ok (mkG a b dm dp (Some (SFltb (lit 0 0 : f64) fa)) (Some (SFltb (lit 0 0 : f64) fb)))
        else let! fa := f a in Ok (mkG a b dm dp (Some (SFltb (lit 0 0 : f64) fa)) None)) end.
      rewrite Est. cbn [bind]. apply loop_mono with (n := 13%nat); [exact Er|discriminate|exact Hn].
    - right. right. destruct Hr as [(a & b & va & -> & Fa & Fb & Ha & Hb & (fa & Ea & Ffa & Va) & (fb & Eb & Ffb & Vb))|(-> & a & b & va & Fa & Fb & Ea & Eb & (fa & Efa & Ffa & Va) & (fb & Efb & Ffb & Vb))].
      + left. exists a, b, fa, fb. rewrite E2 in Ha, Hb. split; [reflexivity|]. split; [exact Fa|]. split; [exact Fb|]. split; [exact Ha|]. split; [exact Hb|].
        split; [exact Ea|]. split; [exact Eb|]. split; [exact Ffa|]. split; [exact Ffb|]. unfold opposite64.
        destruct (Rlt_bool_spec 0 (fval fa)), (Rlt_bool_spec 0 (fval fb)); subst va; try discriminate Vb; lra.
      + right. split; [reflexivity|]. exists a, b, fa, fb. split; [exact Fa|]. split; [exact Fb|]. split; [exact Ea|]. split; [exact Eb|].
        split; [exact Efa|]. split; [exact Efb|]. unfold opposite64.
        destruct (Rlt_bool_spec 0 (fval fa)), (Rlt_bool_spec 0 (fval fb)); subst va; try discriminate Vb; lra.
  Qed.

  Variable t : f64.
  Hypotheses (Ft : finite64 t) (Lt : / lim9 <= fval t <= lim9).

  Lemma final_mono a b z : fval A <= fval a -> fval b <= fval B -> final f a b t z -> final f A B t z.
  Proof.
    intros HA HB [[Fz Iz] (fz & Ez & Ffz & H)]. split; [split; [exact Fz|lra]|]. exists fz. split; [exact Ez|]. split; [exact Ffz|].
    destruct H as [H|(w & fw & [Fw Iw] & H)]; [left; exact H|right]. exists w, fw. split; [split; [exact Fw|lra]|exact H].
  Qed.

  Lemma brent_guess_ok fg fb : (13 <= fg)%nat -> 5 * (fval B - fval A) / fval t + 1 <= INR fb ->
    exists r, brent_guess f fg fb x A B t = Ok r /\
      (final f A B t r \/ (r = nan /\ exists a b fa fb, finite64 a /\ finite64 b /\ fval a = fval A /\ fval b = fval B /\
        f a = Ok fa /\ f b = Ok fb /\ ~ opposite64 fa fb)).
  Proof.
    intros Hg Hb. destruct gtb_ok as (r & Er & Hr). unfold brent_guess. rewrite (Er fg Hg). cbn [bind].
    pose proof (t_pos t Lt) as Tp.
    assert (K : forall a b fa fb', finite64 a -> finite64 b -> fval A <= fval a -> fval a <= fval b -> fval b <= fval B ->
      f a = Ok fa -> f b = Ok fb' -> fval fa * fval fb' <= 0 -> exists z, brent f fb a b t = Ok z /\ final f A B t z).
    { intros a b fa fb' Fa Fb Ha Hab Hb' Ea Eb Hs.
      assert (La : Rabs (fval a) <= lim9) by (apply Rabs_le_inv in LA; apply Rabs_le_inv in LB; apply Rabs_le; lra).
      assert (Lb : Rabs (fval b) <= lim9) by (apply Rabs_le_inv in LA; apply Rabs_le_inv in LB; apply Rabs_le; lra).
      destruct (brent_ok f a b t Fa Fb Ft La Lb Lt) with (fa := fa) (fb := fb') (fuel := fb) as (z & Ez & Hz).
      - intros w Fw Hw. apply Hf; [exact Fw|lra].
      - exact Ea.
      - exact Eb.
      - exact Hab.
      - exact Hs.
      - apply Rle_trans with (5 * (fval B - fval A) / fval t + 1); [|exact Hb]. apply Rplus_le_compat_r. unfold Rdiv.
        apply Rmult_le_compat_r; [left; apply Rinv_0_lt_compat; exact Tp|lra].
      - exists z. split; [exact Ez|]. exact (final_mono a b z Ha Hb' Hz). }
    destruct Hr as [(-> & v & Ev & Zv)|[(-> & v & Ev & Zv)|[(a & b & fa & fb' & -> & Fa & Fb & Ha & Hb' & Ea & Eb & Ffa & Ffb & Op)|(-> & Hn)]]].
    - destruct (K A A v v FA FA ltac:(lra) ltac:(lra) ltac:(lra) Ev Ev) as (z & Ez & Hz); [rewrite Zv; lra|].
      exists z. split; [exact Ez|left; exact Hz].
    - destruct (K B B v v FB FB ltac:(lra) ltac:(lra) ltac:(lra) Ev Ev) as (z & Ez & Hz); [rewrite Zv; lra|].
      exists z. split; [exact Ez|left; exact Hz].
    - destruct (K a b fa fb' Fa Fb ltac:(lra) ltac:(lra) ltac:(lra) Ea Eb) as (z & Ez & Hz); [destruct Op; nra|].
      exists z. split; [exact Ez|left; exact Hz].
    - exists nan. split; [reflexivity|right; split; [reflexivity|exact Hn]].
  Qed.
End Whole.
