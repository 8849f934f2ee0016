(** * Proofs about the root finder *)
From Coq Require Import ZArith Bool Reals Ranalysis5 Lra Lia List Psatz.
From Verif Require Import Num XR Res XRlemmas M_fzero S_fzero.
Local Open Scope R_scope.

Ltac rabs :=
  repeat match goal with
  | |- context [Rabs ?x] => unfold Rabs at 1; destruct (Rcase_abs x)
  | H : context [Rabs ?x] |- _ => unfold Rabs in H at 1; destruct (Rcase_abs x)
  end.

Lemma pos_of_mul x y : 0 < x * y -> 0 < y -> 0 < x.
Proof. intros. destruct (Rlt_dec 0 x); [assumption|nra]. Qed.
Lemma neg_of_mul x y : 0 < x * y -> y < 0 -> x < 0.
Proof. intros. destruct (Rlt_dec x 0); [assumption|nra]. Qed.

(** ** The step of Brent's method *)

Lemma Rabs_pos_neq x : 0 < Rabs x -> x <> 0.
Proof. intros H E. subst. rewrite Rabs_R0 in H. lra. Qed.

Lemma brent_interp_ok a b c fa fb fc m :
  fa <> 0 -> fc <> 0 ->
  exists p q, brent_interp (Fin a) (Fin b) (Fin c) (Fin fa) (Fin fb) (Fin fc) (Fin m)
              = Ok (Fin p, Fin q).
Proof.
  intros Ha Hc. unfold brent_interp. rewrite !sdiv_fin by assumption. xsimp.
  destruct (Reqb a c); eauto.
Qed.

(** The chosen step is the bisection step or points the same way and is at most
    three quarters of the bracket; no division by zero happens. *)
Lemma brent_choose_ok a b c fa fb fc d e m tol :
  0 < tol -> fb <> 0 -> Rabs fb <= Rabs fc ->
  exists d' e',
    brent_choose (Fin a) (Fin b) (Fin c) (Fin fa) (Fin fb) (Fin fc) (Fin d) (Fin e) (Fin m) (Fin tol)
    = Ok (Fin d', Fin e')
    /\ (d' = m \/ (0 <= d' * m /\ Rabs d' <= 3 / 2 * Rabs m - tol / 2)).
Proof.
  intros Ht Hb Hbc. unfold brent_choose. xsimp.
  destruct (Rltb_spec (Rabs e) tol) as [H1|H1]; [exists m, m; simpl; auto|].
  destruct (Rleb_spec (Rabs fa) (Rabs fb)) as [H2|H2]; [exists m, m; simpl; auto|].
  cbn [orb].
  assert (Hfa : fa <> 0).
  { apply Rabs_pos_neq. pose proof (Rabs_pos fb). lra. }
  assert (Hfc : fc <> 0).
  { apply Rabs_pos_neq. pose proof (Rabs_pos_lt fb Hb). lra. }
  destruct (brent_interp_ok a b c fa fb fc m Hfa Hfc) as (p & q & ->).
  cbn [bind].
  (* p, q after sign normalisation: p >= 0 *)
  assert (Hpq : exists p' q', 0 <= p' /\
     (if Rltb 0 p then (Fin p, Fin (- q)) else (Fin (- p), Fin q)) = (Fin p', Fin q')).
  { destruct (Rltb_spec 0 p).
    - exists p, (- q). split; [lra|reflexivity].
    - exists (- p), q. split; [lra|reflexivity]. }
  destruct Hpq as (p' & q' & Hp' & Hpq). xsimp. rewrite Hpq. xsimp. clear Hpq.
  destruct (Rltb_spec (2 * p') (3 * m * q' - Rabs (tol * q'))) as [H3|H3];
    [|exists m, m; simpl; auto].
  destruct (Rltb_spec p' (Rabs (/ 2 * e * q'))) as [H4|H4];
    [|exists m, m; simpl; auto].
  cbn [andb].
  assert (Hq : q' <> 0) by (intros ->; rewrite !Rmult_0_r, Rabs_R0 in H3; lra).
  rewrite sdiv_fin by assumption; cbn [bind].
  exists (p' / q'), d; split; [reflexivity|right].
  assert (Hd : 2 * Rabs (p' / q') < 3 * Rabs m - tol /\ 0 <= p' / q' * m); [|lra].
  rewrite Rabs_mult, (Rabs_right tol) in H3 by lra.
  assert (Hqa : 0 < Rabs q') by (apply Rabs_pos_lt; assumption).
  assert (Hmq : 0 < m * q') by nra.
  assert (Eabs : Rabs m * Rabs q' = m * q')
    by (rewrite <- Rabs_mult; apply Rabs_right; lra).
  split; [ | replace (p' / q' * m) with (p' * (m * q') * (/ q' * / q')) by (field; assumption);
        apply Rmult_le_pos; [apply Rmult_le_pos; lra |
          pose proof (Rle_0_sqr (/ q')) as Hs; unfold Rsqr in Hs; exact Hs] ].
  unfold Rdiv; rewrite Rabs_mult, (Rabs_right p') by lra.
  rewrite Rabs_inv.
  apply Rmult_lt_reg_r with (Rabs q'); [assumption|].
  replace (2 * (p' * / Rabs q') * Rabs q') with (2 * p') by (field; lra).
  nra.
Qed.

(** ** Invariant of Brent's loop *)

Definition bracket (g : R -> R) (lo hi b c fb fc : R) : Prop :=
  lo <= b <= hi /\ lo <= c <= hi /\ fb = g b /\ fc = g c /\ fb * fc <= 0.

(** One pass: either it stops at an acceptable point, or the bracket is kept and
    gets shorter by at least t/2. *)
Lemma brent_body_ok f g lo hi t a b c fa fb fc d e :
  0 < t ->
  (forall x, lo <= x <= hi -> f (Fin x) = Ok (Fin (g x))) ->
  bracket g lo hi b c fb fc ->
  (exists x, brent_body f (Fin t) (mkB (Fin a) (Fin b) (Fin c) (Fin fa) (Fin fb) (Fin fc) (Fin d) (Fin e))
             = Ok (inr (Fin x))
     /\ lo <= x <= hi /\ near_root g lo hi x (brent_tol x t))
  \/ (2 * t < Rabs (c - b) /\ exists a' b' c' fa' fb' fc' d' e',
      brent_body f (Fin t) (mkB (Fin a) (Fin b) (Fin c) (Fin fa) (Fin fb) (Fin fc) (Fin d) (Fin e))
      = Ok (inl (mkB (Fin a') (Fin b') (Fin c') (Fin fa') (Fin fb') (Fin fc') (Fin d') (Fin e')))
      /\ bracket g lo hi b' c' fb' fc'
      /\ Rabs (c' - b') <= Rabs (c - b) - t / 2).
Proof.
  intros Ht Hf Hinv. unfold brent_body. rewrite eps_xr. xsimp.
  (* the swap *)
  assert (Hsw : exists a1 b1 c1 fa1 fb1 fc1,
     (if Rltb (Rabs fc) (Rabs fb) then (Fin b, Fin c, Fin b, Fin fb, Fin fc, Fin fb)
      else (Fin a, Fin b, Fin c, Fin fa, Fin fb, Fin fc))
     = (Fin a1, Fin b1, Fin c1, Fin fa1, Fin fb1, Fin fc1)
     /\ bracket g lo hi b1 c1 fb1 fc1 /\ Rabs fb1 <= Rabs fc1 /\ Rabs (c1 - b1) = Rabs (c - b)).
  { destruct (Rltb_spec (Rabs fc) (Rabs fb)) as [H|H].
    - exists b, c, b, fb, fc, fb. repeat split; try (destruct Hinv as (?&?&?&?&?); tauto || lra).
      apply Rabs_minus_sym.
    - exists a, b, c, fa, fb, fc. repeat split; try (destruct Hinv as (?&?&?&?&?); tauto || lra). }
  destruct Hsw as (a1 & b1 & c1 & fa1 & fb1 & fc1 & Esw & Hinv1 & Habs & Hlen).
  rewrite Esw. xsimp. rewrite <- Hlen. clear Esw Hinv Hlen a b c fa fb fc.
  rename a1 into a, b1 into b, c1 into c, fa1 into fa, fb1 into fb, fc1 into fc.
  destruct Hinv1 as (Hb & Hc & Efb & Efc & Hsign).
  set (tol := 2 * / 4503599627370496 * Rabs b + t).
  set (m := / 2 * (c - b)).
  assert (Htol : t <= tol) by (unfold tol; pose proof (Rabs_pos b); lra).
  assert (Hm : Rabs (c - b) = 2 * Rabs m).
  { unfold m. rewrite Rabs_mult, (Rabs_right (/ 2)) by lra. lra. }
  assert (Hopp : fb <> 0 -> opposite fb fc /\ fb * fc < 0).
  { intros Hn. assert (fc <> 0).
    { intros ->. rewrite Rabs_R0 in Habs. pose proof (Rabs_pos_lt fb Hn). lra. }
    assert (fb * fc < 0).
    { destruct (Rtotal_order fb 0) as [?|[?|?]], (Rtotal_order fc 0) as [?|[?|?]]; try lra; nra. }
    split; [|assumption]. unfold opposite.
    destruct (Rlt_dec 0 fb); [left|right]; split; nra. }
  destruct (Rleb_spec (Rabs m) tol) as [H1|H1]; cbn [orb].
  { left. exists b. split; [reflexivity|]. split; [assumption|].
    destruct (Req_EM_T fb 0) as [H0|H0]; [left; congruence|].
    right. exists c. split; [assumption|]. split.
    - rewrite Rabs_minus_sym, Hm. unfold brent_tol, Reps. fold tol. lra.
    - rewrite <- Efb, <- Efc. apply Hopp; assumption. }
  destruct (Reqb_spec fb 0) as [H0|H0].
  { left. exists b. split; [reflexivity|]. split; [assumption|]. left. congruence. }
  right. split; [lra|].
  destruct (brent_choose_ok a b c fa fb fc d e m tol ltac:(lra) H0 Habs) as (d' & e' & -> & Hd).
  cbn [bind]. xsimp.
  (* the new point *)
  assert (Hstep : exists b', (if Rltb tol (Rabs d') then Fin (b + d')
              else if Rltb 0 m then Fin (b + tol) else Fin (b - tol)) = Fin b'
            /\ 0 < (b' - b) * m /\ tol <= Rabs (b' - b) <= 3 / 2 * Rabs m).
  { destruct (Rltb_spec tol (Rabs d')) as [H2|H2].
    - exists (b + d'). split; [reflexivity|]. replace (b + d' - b) with d' by lra.
      assert (Hd0 : d' <> 0) by (apply Rabs_pos_neq; lra).
      assert (Hm0 : m <> 0) by (apply Rabs_pos_neq; lra).
      destruct Hd as [->|[Hd1 Hd2]].
      + split; [nra|]. pose proof (Rabs_pos m). lra.
      + split; [|lra]. destruct Hd1 as [Hd1|Hd1]; [assumption|].
        symmetry in Hd1. apply Rmult_integral in Hd1. tauto.
    - destruct (Rltb_spec 0 m) as [H3|H3].
      + exists (b + tol). split; [reflexivity|]. replace (b + tol - b) with tol by lra.
        rewrite (Rabs_right tol) by lra. split; [nra|lra].
      + exists (b - tol). split; [reflexivity|]. replace (b - tol - b) with (- tol) by lra.
        rewrite Rabs_Ropp, (Rabs_right tol) by lra.
        assert (m < 0) by (clear - H1 H3 Htol Ht; unfold Rabs in H1; destruct (Rcase_abs m); lra).
        split; [nra|lra]. }
  destruct Hstep as (b' & -> & Hdir & Hd1 & Hd2).
  assert (Hb'c : (b <= b' <= c /\ b < c) \/ (c <= b' <= b /\ c < b)).
  { destruct (Rlt_dec 0 m) as [Hmp|Hmp].
    - left. assert (0 < b' - b) by (apply pos_of_mul with m; assumption).
      rewrite (Rabs_right m), Rabs_right in Hd2 by lra. unfold m in *. lra.
    - right. assert (m <> 0) by (intros E0; rewrite E0 in Hdir; lra). assert (m < 0) by lra.
      assert (b' - b < 0) by (apply neg_of_mul with m; assumption).
      rewrite (Rabs_left m), Rabs_left in Hd2 by lra. unfold m in *. lra. }
  assert (Hb' : lo <= b' <= hi) by lra.
  rewrite (Hf b' Hb'). xsimp.
  assert (Hlen1 : Rabs (c - b') = 2 * Rabs m - Rabs (b' - b)).
  { rewrite <- Hm. destruct Hb'c as [?|?].
    - rewrite !Rabs_right by lra. lra.
    - rewrite !Rabs_left1 by lra. lra. }
  rewrite Hm.
  destruct (Hopp H0) as [_ Hneg].
  repeat rcase; cbn [andb orb];
    eexists _, _, _, _, _, _, _, _; (split; [reflexivity|]);
    (split; [unfold bracket; split; [assumption|split; [assumption|
       split; [reflexivity|split; [assumption|]]]]; try nra |]);
    try (rewrite Hlen1; lra); try (rewrite Rabs_minus_sym; lra).
Qed.

(** ** Total correctness of [brent] *)

Lemma brent_loop_ok f g lo hi t n : 0 < t ->
  (forall x, lo <= x <= hi -> f (Fin x) = Ok (Fin (g x))) ->
  forall a b c fa fb fc d e,
  bracket g lo hi b c fb fc ->
  Rabs (c - b) <= INR n * (t / 2) ->
  exists x, loop (S n) (brent_body f (Fin t))
     (mkB (Fin a) (Fin b) (Fin c) (Fin fa) (Fin fb) (Fin fc) (Fin d) (Fin e)) = Ok (Fin x)
   /\ lo <= x <= hi /\ near_root g lo hi x (brent_tol x t).
Proof.
  intros Ht Hf. induction n as [|n IH]; intros a b c fa fb fc d e Hinv Hlen.
  - destruct (brent_body_ok f g lo hi t a b c fa fb fc d e Ht Hf Hinv)
      as [(x & E & H)|(Hgt & _)].
    + exists x. cbn [loop]. rewrite E. auto.
    + simpl in Hlen. lra.
  - destruct (brent_body_ok f g lo hi t a b c fa fb fc d e Ht Hf Hinv)
      as [(x & E & H)|(Hgt & a' & b' & c' & fa' & fb' & fc' & d' & e' & E & Hinv' & Hlen')].
    + exists x. cbn [loop]. rewrite E. auto.
    + destruct (IH a' b' c' fa' fb' fc' d' e' Hinv') as (x & E' & H).
      { rewrite S_INR in Hlen. lra. }
      exists x. split; [|assumption].
      change (loop (S (S n)) (brent_body f (Fin t)) ?s) with
        (bind (brent_body f (Fin t) s) (fun r => match r with
           | inl s' => loop (S n) (brent_body f (Fin t)) s' | inr a => Ok a end)).
      rewrite E. exact E'.
Qed.

Lemma brent_correct f g a b t :
  a <= b -> 0 < t ->
  (forall x, a <= x <= b -> f (Fin x) = Ok (Fin (g x))) ->
  g a * g b <= 0 ->
  exists x,
    (forall fuel, 2 * (b - a) / t + 1 <= INR fuel ->
       brent f fuel (Fin a) (Fin b) (Fin t) = Ok (Fin x))
    /\ a <= x <= b
    /\ near_root g a b x (brent_tol x t).
Proof.
  intros Hab Ht Hf Hs.
  assert (Hinv : bracket g a b b a (g b) (g a)).
  { unfold bracket. repeat split; try lra. }
  (* enough fuel *)
  destruct (archimed (2 * (b - a) / t)) as [Hup _].
  set (n := Z.to_nat (up (2 * (b - a) / t))).
  assert (Hpos : 0 <= 2 * (b - a) / t).
  { apply Rmult_le_pos; [lra|]. left. apply Rinv_0_lt_compat. assumption. }
  assert (Hn : 2 * (b - a) / t <= INR n).
  { unfold n. rewrite INR_IZR_INZ, Z2Nat.id; [lra|].
    apply le_IZR. lra. }
  assert (Ebody : forall fuel, brent f fuel (Fin a) (Fin b) (Fin t) =
     loop fuel (brent_body f (Fin t)) (mkB (Fin a) (Fin b) (Fin a) (Fin (g a)) (Fin (g b)) (Fin (g a))
        (Fin (b - a)) (Fin (b - a)))).
  { intros fuel. unfold brent. rewrite (Hf a), (Hf b) by lra. xsimp.
    rewrite !Rltb_false by lra. reflexivity. }
  assert (Hgen : forall k, 2 * (b - a) / t <= INR k -> exists x,
     brent f (S k) (Fin a) (Fin b) (Fin t) = Ok (Fin x) /\ a <= x <= b
     /\ near_root g a b x (brent_tol x t)).
  { intros k Hk. rewrite Ebody. apply brent_loop_ok with (g := g) (lo := a) (hi := b); auto.
    rewrite Rabs_left1 by lra.
    apply Rmult_le_compat_r with (r := t / 2) in Hk; [|lra].
    replace (2 * (b - a) / t * (t / 2)) with (b - a) in Hk by (field; lra). lra. }
  destruct (Hgen n Hn) as (x & E & Hx & Hr).
  exists x. split; [|split; assumption].
  intros fuel Hfuel.
  destruct fuel as [|k]; [simpl in Hfuel; lra|].
  rewrite S_INR in Hfuel.
  destruct (Hgen k ltac:(lra)) as (x' & E' & _).
  rewrite Ebody in E, E'. rewrite Ebody.
  destruct (le_ge_dec (S k) (S n)) as [Hle|Hge].
  - rewrite (loop_mono _ _ _ _ E') in E by (congruence || lia). congruence.
  - rewrite (loop_mono _ _ _ _ E) by (congruence || lia). reflexivity.
Qed.

(** NaN is returned exactly for a bad range or a product of end values > 0 *)
Lemma brent_nan_bad_range f fuel (a b t : xr) :
  a = NaN \/ b = NaN \/ (exists ra rb, a = Fin ra /\ b = Fin rb /\ rb < ra) ->
  brent f fuel a b t = Ok NaN.
Proof.
  intros [->|[->|(ra & rb & -> & -> & H)]]; unfold brent; xsimp; try reflexivity.
  - destruct (xr_isnan a); reflexivity.
  - rewrite Rltb_true by assumption. reflexivity.
Qed.

Lemma brent_nan_same_sign f g fuel a b t :
  a <= b ->
  (forall x, a <= x <= b -> f (Fin x) = Ok (Fin (g x))) ->
  0 < g a * g b ->
  brent f fuel (Fin a) (Fin b) (Fin t) = Ok NaN.
Proof.
  intros Hab Hf Hs. unfold brent. rewrite (Hf a), (Hf b) by lra. xsimp.
  rewrite Rltb_false by lra. rewrite Rltb_true by assumption. reflexivity.
Qed.

(** Intermediate value theorem in the form needed *)
Lemma near_root_continuous g lo hi x tol :
  lo <= x <= hi -> 0 <= tol -> continuous_on g lo hi -> near_root g lo hi x tol ->
  exists r, lo <= r <= hi /\ Rabs (x - r) <= tol /\ g r = 0.
Proof.
  intros Hx Htol Hc [H0|(c & Hcr & Hd & Ho)].
  - exists x. split; [assumption|]. split; [|assumption].
    rewrite Rminus_diag_eq, Rabs_R0 by reflexivity. assumption.
  - (* order the two points *)
    assert (Hgen : forall u v, lo <= u -> u <= v -> v <= hi -> opposite (g u) (g v) ->
              exists r, u <= r <= v /\ g r = 0).
    { intros u v Hu Huv Hv Huvo.
      destruct (Req_dec u v) as [->|Hne]; [destruct Huvo; lra|].
      destruct (Req_dec (g u) 0) as [E|E]; [exists u; split; [lra|assumption]|].
      destruct (Req_dec (g v) 0) as [E'|E']; [exists v; split; [lra|assumption]|].
      assert (Hcont : forall z, u <= z <= v -> continuity_pt g z) by (intros; apply Hc; lra).
      destruct Huvo as [[H1 H2]|[H1 H2]].
      - destruct (IVT_interv (fun z => - g z) u v) as (r & Hr & Er).
        + intros z Hz. apply (continuity_pt_opp g z). auto.
        + lra.
        + lra.
        + lra.
        + exists r. split; [assumption|lra].
      - destruct (IVT_interv g u v) as (r & Hr & Er); auto; try lra.
        exists r. auto. }
    destruct (Rle_dec x c) as [Hle|Hgt].
    + destruct (Hgen x c) as (r & Hr & Er); try lra; auto.
      exists r. split; [lra|]. split; [|assumption].
      rewrite Rabs_left1 in * by lra. lra.
    + destruct (Hgen c x) as (r & Hr & Er); try lra.
      { destruct Ho as [[? ?]|[? ?]]; [right|left]; lra. }
      exists r. split; [lra|]. split; [|assumption].
      rewrite Rabs_right in * by lra. lra.
Qed.

Lemma brent_tol_pos x t : 0 < t -> 0 < brent_tol x t.
Proof. intros. unfold brent_tol, Reps. pose proof (Rabs_pos x). lra. Qed.

(** ** guess_to_bounds *)

Definition growth : R := Rlit 1414213562373095 (-15).

Lemma growth_val : growth = 1414213562373095 / 1000000000000000.
Proof. unfold growth, Rlit. simpl. lra. Qed.

Lemma growth_12 : 50 < growth ^ 12.
Proof.
  rewrite growth_val. apply Rlt_le_trans with ((14 / 10) ^ 12); [lra|].
  apply pow_incr. lra.
Qed.

Lemma growth_pow_le n m : (n <= m)%nat -> growth ^ n <= growth ^ m.
Proof. intros. apply Rle_pow; [rewrite growth_val; lra|assumption]. Qed.

(** [pos_flag g o a]: the remembered sign [o], if any, is that of g at a *)
Definition pos_flag (g : R -> R) (o : option bool) (a : R) : Prop :=
  match o with Some v => v = Rltb 0 (g a) | None => True end.

Definition ginv (g : R -> R) (x A B : R) (k : nat) (st : gstate (F := xr)) : Prop :=
  exists a b dxm dxp fapos fbpos,
    st = mkG (Fin a) (Fin b) (Fin dxm) (Fin dxp) fapos fbpos
    /\ A <= a <= x /\ x <= b <= B
    /\ (A < a -> dxm = (x - A) / 50 * growth ^ k /\ growth ^ k < 50 /\ fbpos <> None)
    /\ (b < B -> dxp = (B - x) / 50 * growth ^ k /\ growth ^ k < 50 /\ (fapos <> None \/ A < a))
    /\ (a = A -> fapos <> None) /\ (a = A -> b = B -> fbpos <> None)
    /\ pos_flag g fapos a /\ pos_flag g fbpos b.

Definition gres_ok (g : R -> R) (x A B : R) (r : xr * xr) : Prop :=
  (exists a b, r = (Fin a, Fin b) /\ A <= a <= x /\ x <= b <= B /\ opposite (g a) (g b))
  \/ (r = (NaN, NaN) /\ ~ opposite (g A) (g B)).

Lemma opposite_flags u v : xorb (Rltb 0 u) (Rltb 0 v) = true <-> opposite u v.
Proof.
  unfold opposite. destruct (Rltb_spec 0 u), (Rltb_spec 0 v); simpl; split; intros H;
    try discriminate; try reflexivity; try lra.
Qed.

Lemma xr_fmax a b : fmax (Fin a) (Fin b) = Fin (Rmax a b).
Proof.
  unfold fmax. xsimp. unfold Rmax. destruct (Rltb_spec a b), (Rle_dec a b); try reflexivity; f_equal; lra.
Qed.
Lemma xr_fmin a b : fmin (Fin a) (Fin b) = Fin (Rmin a b).
Proof.
  unfold fmin. xsimp. unfold Rmin. destruct (Rltb_spec b a), (Rle_dec a b); try reflexivity; f_equal; lra.
Qed.

(** the second half, started in a state where a and its sign are known *)
Lemma gtb_right_ok f g x A B k a b dxm dxp va fbpos :
  (forall x, A <= x <= B -> f (Fin x) = Ok (Fin (g x))) ->
  A <= a <= x -> x <= b <= B -> va = Rltb 0 (g a) ->
  (A < a -> dxm = (x - A) / 50 * growth ^ S k /\ growth ^ S k < 50) ->
  (b < B -> dxp = (B - x) / 50 * growth ^ k) ->
  (b = B -> fbpos = Some (Rltb 0 (g b))) ->
  let r := gtb_right f (Fin x) (Fin A) (Fin B) (mkG (Fin a) (Fin b) (Fin dxm) (Fin dxp) (Some va) fbpos) in
  (exists r', r = Ok (inr r') /\ gres_ok g x A B r')
  \/ (exists st', r = Ok (inl st') /\ ginv g x A B (S k) st').
Proof.
  intros Hf Ha Hb Hva Hm Hp Hfb. cbv zeta. unfold gtb_right. xsimp. fold growth.
  assert (Hgp : 1 <= growth ^ k) by (apply pow_R1_Rle; rewrite growth_val; lra).
  assert (Hg0 : 0 < growth) by (rewrite growth_val; lra).
  assert (Hg1 : growth ^ S k = growth * growth ^ k) by reflexivity.
  destruct (Rltb_spec b B) as [HbB|HbB].
  - specialize (Hp HbB). rewrite xr_fmin.
    set (b' := Rmin (x + dxp * growth) B).
    assert (Hdp : 0 <= dxp * growth).
    { rewrite Hp. apply Rmult_le_pos; [|lra]. apply Rmult_le_pos; lra. }
    assert (Hb' : x <= b' <= B).
    { unfold b'. split; [apply Rmin_glb; lra|apply Rmin_r]. }
    rewrite (Hf b') by lra. cbn [bind differ]. xsimp.
    destruct (xorb va (Rltb 0 (g b'))) eqn:Ex.
    + left. eexists. split; [reflexivity|]. left. exists a, b'.
      split; [reflexivity|]. split; [lra|]. split; [lra|].
      apply opposite_flags. rewrite <- Hva. assumption.
    + right. eexists. split; [reflexivity|].
      exists a, b', dxm, (dxp * growth), (Some va), (Some (Rltb 0 (g b'))).
      split; [reflexivity|]. split; [lra|]. split; [lra|].
      split. { intros H. destruct (Hm H) as (? & ?). split; [assumption|]. split; [assumption|congruence]. }
      split. { intros H.
        assert (Elt : x + dxp * growth < B).
        { unfold b' in H. destruct (Rle_dec B (x + dxp * growth)); [|lra].
          rewrite Rmin_right in H by assumption. lra. }
        split; [rewrite Hp, Hg1; ring|]. split; [|left; congruence].
        rewrite Hp in Elt. rewrite Hg1.
        apply Rmult_lt_reg_l with ((B - x) / 50); [lra|].
        replace ((B - x) / 50 * 50) with (B - x) by field.
        lra. }
      repeat split; try congruence; assumption.
  - assert (b = B) by lra. subst b. rewrite (Hfb eq_refl).
    destruct (Reqb_spec a A) as [Ea|Ea].
    + left. subst a. cbn [differ bind]. eexists. split; [reflexivity|]. subst va.
      destruct (xorb (Rltb 0 (g A)) (Rltb 0 (g B))) eqn:Ex.
      * left. exists A, B. split; [reflexivity|]. split; [lra|]. split; [lra|].
        apply opposite_flags. assumption.
      * right. split; [reflexivity|]. intros Ho. apply opposite_flags in Ho. congruence.
    + right. eexists. split; [reflexivity|].
      exists a, B, dxm, dxp, (Some va), (Some (Rltb 0 (g B))).
      split; [reflexivity|]. split; [assumption|]. split; [assumption|].
      split. { intros H. destruct (Hm H). repeat split; try assumption. congruence. }
      split. { intros; lra. }
      repeat split; try congruence; assumption.
Qed.

Lemma gtb_body_ok f g x A B k st :
  A <= x <= B ->
  (forall x, A <= x <= B -> f (Fin x) = Ok (Fin (g x))) ->
  ginv g x A B k st ->
  (exists r, gtb_body f (Fin x) (Fin A) (Fin B) st = Ok (inr r) /\ gres_ok g x A B r)
  \/ ((k < 12)%nat /\ exists st', gtb_body f (Fin x) (Fin A) (Fin B) st = Ok (inl st') /\ ginv g x A B (S k) st').
Proof.
  intros Hx Hf (a & b & dxm & dxp & fapos & fbpos & -> & Ha & Hb & Hm & Hp & Hfa & Hfb & Hpa & Hpb).
  unfold gtb_body.
  assert (Hgk : growth ^ k < 50 -> (k < 12)%nat).
  { intros H. destruct (le_lt_dec 12 k) as [Hle|]; [|assumption].
    pose proof (growth_pow_le _ _ Hle). pose proof growth_12. lra. }
  assert (Hgp : 1 <= growth ^ k) by (apply pow_R1_Rle; rewrite growth_val; lra).
  assert (Hg0 : 0 < growth) by (rewrite growth_val; lra).
  assert (Hg1 : growth ^ S k = growth * growth ^ k) by reflexivity.
  unfold gtb_left. xsimp. fold growth.
  destruct (Rltb_spec A a) as [HAa|HAa].
  - (* move a left *)
    destruct (Hm HAa) as (Hdxm & Hk50 & Hfbn).
    destruct fbpos as [vb|]; [|congruence]. cbn [pos_flag] in Hpb.
    rewrite xr_fmax.
    set (a' := Rmax (x - dxm * growth) A).
    assert (Hdm : 0 <= dxm * growth).
    { rewrite Hdxm. apply Rmult_le_pos; [|lra]. apply Rmult_le_pos; lra. }
    assert (Ha' : A <= a' <= x).
    { unfold a'. split; [apply Rmax_r|apply Rmax_lub; lra]. }
    rewrite (Hf a') by lra. cbn [bind differ]. xsimp.
    destruct (xorb (Rltb 0 (g a')) vb) eqn:Ex.
    { left. eexists. split; [reflexivity|]. left. exists a', b.
      split; [reflexivity|]. split; [assumption|]. split; [assumption|].
      apply opposite_flags. rewrite <- Hpb. assumption. }
    destruct (gtb_right_ok f g x A B k a' b (dxm * growth) dxp (Rltb 0 (g a')) (Some vb))
      as [H|H]; auto.
    + intros H.
      assert (Elt : A < x - dxm * growth).
      { unfold a' in H. destruct (Rle_dec (x - dxm * growth) A); [|lra].
        rewrite Rmax_right in H by assumption. lra. }
      split; [rewrite Hdxm, Hg1; ring|].
      rewrite Hdxm in Elt. rewrite Hg1.
      apply Rmult_lt_reg_l with ((x - A) / 50); [lra|].
      replace ((x - A) / 50 * 50) with (x - A) by field. lra.
    + intros HbB. apply Hp; assumption.
    + intros; congruence.
  - (* a = A *)
    assert (a = A) by lra. subst a.
    specialize (Hfa eq_refl). destruct fapos as [va|]; [|congruence]. cbn [pos_flag] in Hpa.
    destruct (Reqb_spec b B) as [HbB|HbB].
    + subst b. specialize (Hfb eq_refl eq_refl). destruct fbpos as [vb|]; [|congruence].
      cbn [pos_flag] in Hpb. cbn [differ bind].
      left. eexists. split; [reflexivity|]. destruct (xorb va vb) eqn:Ex.
      * left. exists A, B. split; [reflexivity|]. split; [lra|]. split; [lra|].
        apply opposite_flags. congruence.
      * right. split; [reflexivity|]. intros Ho. apply opposite_flags in Ho. congruence.
    + assert (HbB' : b < B) by lra. destruct (Hp HbB') as (Hdxp & Hk50 & _). cbn [bind].
      destruct (gtb_right_ok f g x A B k A b dxm dxp va fbpos) as [H|H]; auto; try lra.
Qed.

Lemma gtb_loop_ok f g x A B :
  A <= x <= B ->
  (forall x, A <= x <= B -> f (Fin x) = Ok (Fin (g x))) ->
  forall n k st, ginv g x A B k st -> (13 <= k + n)%nat -> (1 <= n)%nat ->
  exists r, loop n (gtb_body f (Fin x) (Fin A) (Fin B)) st = Ok r /\ gres_ok g x A B r.
Proof.
  intros Hx Hf. induction n as [|n IH]; intros k st Hinv Hk Hn; [lia|].
  cbn [loop].
  destruct (gtb_body_ok f g x A B k st Hx Hf Hinv) as [(r & E & Hr)|(Hk12 & st' & E & Hinv')];
    rewrite E; cbn [bind].
  - eauto.
  - apply (IH (S k)); [assumption|lia|lia].
Qed.

(** clamping of the guess to [A,B] *)
Definition clamp (A B : R) (x : xr) : R :=
  match x with Fin r => Rmin (Rmax r A) B | NInf => A | _ => B end.

Lemma clamp_ok A B x : A <= B -> x <> NaN ->
  fmin (fmax x (Fin A)) (Fin B) = Fin (clamp A B x) /\ A <= clamp A B x <= B.
Proof.
  intros HAB Hx. destruct x as [r| | |]; try congruence; cbn [clamp].
  - rewrite xr_fmax, xr_fmin. split; [reflexivity|].
    split; [apply Rmin_glb; [apply Rmax_r|assumption]|apply Rmin_r].
  - split; [reflexivity|lra].
  - unfold fmax. xsimp. rewrite xr_fmin. rewrite Rmin_left by assumption.
    split; [reflexivity|lra].
Qed.

Lemma guess_to_bounds_correct f g (x : xr) A B :
  A <= B -> x <> NaN ->
  (forall x, A <= x <= B -> f (Fin x) = Ok (Fin (g x))) ->
  exists r,
    (forall fuel, (13 <= fuel)%nat -> guess_to_bounds f fuel x (Fin A) (Fin B) = Ok r)
    /\ ((r = (Fin A, Fin A) /\ g A = 0)
        \/ (r = (Fin B, Fin B) /\ g B = 0)
        \/ (exists a b, r = (Fin a, Fin b) /\ A <= a <= clamp A B x /\ clamp A B x <= b <= B
               /\ opposite (g a) (g b))
        \/ (r = (NaN, NaN) /\ 0 < g A * g B)).
Proof.
  intros HAB Hx Hf.
  destruct (Req_dec (g A) 0) as [HA|HA].
  { exists (Fin A, Fin A). split; [|auto]. intros fuel _. unfold guess_to_bounds.
    rewrite (Hf A) by lra. xsimp. rewrite Reqb_true by assumption. reflexivity. }
  destruct (Req_dec (g B) 0) as [HB|HB].
  { exists (Fin B, Fin B). split; [|auto]. intros fuel _. unfold guess_to_bounds.
    rewrite (Hf A), (Hf B) by lra. xsimp. rewrite Reqb_false, Reqb_true by assumption. reflexivity. }
  destruct (clamp_ok A B x HAB Hx) as [Ecl Hcl].
  set (y := clamp A B x) in *.
  (* the state at loop entry *)
  assert (Hst : exists st, ginv g y A B 0 st /\
     forall fuel, guess_to_bounds f fuel x (Fin A) (Fin B) = loop fuel (gtb_body f (Fin y) (Fin A) (Fin B)) st).
  { unfold guess_to_bounds. rewrite (Hf A), (Hf B) by lra. xsimp.
    rewrite !Reqb_false by assumption. rewrite Ecl. xsimp.
    rewrite !sdiv_fin by lra. xsimp.
    destruct (Reqb_spec ((y - A) / 50) 0) as [H1|H1];
    destruct (Reqb_spec ((B - y) / 50) 0) as [H2|H2]; xsimp.
    - assert (y = A) by lra. assert (y = B) by lra.
      rewrite Rltb_false, Reqb_true by lra. rewrite (Hf A), (Hf B) by lra. xsimp.
      eexists. split; [|reflexivity].
      eexists _, _, _, _, _, _. split; [reflexivity|].
      repeat split; try lra; try congruence; try reflexivity; intros; try lra.
    - assert (y = A) by lra.
      rewrite Rltb_false, Reqb_false by lra. rewrite (Hf A) by lra. xsimp.
      eexists. split; [|reflexivity].
      eexists _, _, _, _, _, _. split; [reflexivity|].
      repeat split; try lra; try congruence; try reflexivity; intros; try lra; try (simpl; lra).
      left; congruence.
    - assert (y = B) by lra.
      rewrite Rltb_true by lra. rewrite (Hf B) by lra. xsimp.
      eexists. split; [|reflexivity].
      eexists _, _, _, _, _, _. split; [reflexivity|].
      repeat split; try lra; try congruence; try reflexivity; intros; try lra; try (simpl; lra).
    - rewrite Rltb_true by lra. rewrite (Hf y) by lra. xsimp.
      eexists. split; [|reflexivity].
      eexists _, _, _, _, _, _. split; [reflexivity|].
      repeat split; try lra; try congruence; try reflexivity; intros; try lra; try (simpl; lra). }
  destruct Hst as (st & Hinv & Efuel).
  destruct (gtb_loop_ok f g y A B Hcl Hf 13 0 st Hinv) as (r & E & Hr); try lia.
  exists r. split.
  - intros fuel Hfuel. rewrite Efuel. apply loop_mono with (n := 13%nat); auto. congruence.
  - destruct Hr as [H|[-> Hn]]; [auto|]. right. right. right. split; [reflexivity|].
    unfold opposite in Hn.
    destruct (Rtotal_order (g A) 0) as [?|[?|?]]; destruct (Rtotal_order (g B) 0) as [?|[?|?]];
      try congruence; try nra; exfalso; apply Hn; lra.
Qed.

(** With a NaN guess the search never ends. *)
Lemma guess_to_bounds_nan_diverges (f : xr -> res xr) A B gA gB v :
  f (Fin A) = Ok (Fin gA) -> gA <> 0 -> f (Fin B) = Ok (Fin gB) -> gB <> 0 ->
  f NaN = Ok v ->
  forall fuel, guess_to_bounds f fuel NaN (Fin A) (Fin B) = Err OutOfFuel.
Proof.
  intros HA HA0 HB HB0 Hn fuel. unfold guess_to_bounds. rewrite HA, HB. xsimp.
  rewrite !Reqb_false by assumption.
  unfold fmax, fmin. xsimp.
  unfold sdiv, zero. xsimp. rewrite !Reqb_false by lra. cbn [div xrNum xr_div bind]. xsimp.
  rewrite Hn. xsimp.
  induction fuel as [|n IH]; [reflexivity|].
  cbn [loop]. unfold gtb_body at 1, gtb_left, gtb_right. xsimp. exact IH.
Qed.

(** ** brent_guess *)
Lemma brent_guess_correct f g (x : xr) A B t :
  A <= B -> x <> NaN -> 0 < t ->
  (forall x, A <= x <= B -> f (Fin x) = Ok (Fin (g x))) ->
  exists r,
    (forall fuel_g fuel_b, (13 <= fuel_g)%nat -> 2 * (B - A) / t + 1 <= INR fuel_b ->
       brent_guess f fuel_g fuel_b x (Fin A) (Fin B) (Fin t) = Ok r)
    /\ ((r = NaN /\ 0 < g A * g B)
        \/ exists y, r = Fin y /\ A <= y <= B /\ near_root g A B y (brent_tol y t)).
Proof.
  intros HAB Hx Ht Hf.
  destruct (guess_to_bounds_correct f g x A B HAB Hx Hf) as (ab & Eab & Hab).
  assert (Hgen : forall a b, A <= a -> a <= b -> b <= B -> g a * g b <= 0 -> ab = (Fin a, Fin b) ->
    exists r,
    (forall fuel_g fuel_b, (13 <= fuel_g)%nat -> 2 * (B - A) / t + 1 <= INR fuel_b ->
       brent_guess f fuel_g fuel_b x (Fin A) (Fin B) (Fin t) = Ok r)
    /\ ((r = NaN /\ 0 < g A * g B)
        \/ exists y, r = Fin y /\ A <= y <= B /\ near_root g A B y (brent_tol y t))).
  { intros a b H1 H2 H3 Hs E.
    destruct (brent_correct f g a b t) as (y & Ey & Hy & Hr); auto.
    { intros z Hz. apply Hf. lra. }
    exists (Fin y). split.
    - intros fg fb Hfg Hfb. unfold brent_guess. rewrite Eab by assumption. rewrite E. cbn [bind].
      apply Ey. apply Rle_trans with (2 * (B - A) / t + 1); [|assumption].
      apply Rplus_le_compat_r. unfold Rdiv. apply Rmult_le_compat_r; [|lra].
      left. apply Rinv_0_lt_compat. assumption.
    - right. exists y. split; [reflexivity|]. split; [lra|].
      destruct Hr as [Hr|(c & Hc & Hd & Ho)]; [left; assumption|right].
      exists c. repeat split; try lra; assumption. }
  destruct Hab as [[E H0]|[[E H0]|[(a & b & E & Ha & Hb & Ho)|[E Hs]]]].
  - apply (Hgen A A); try lra; try assumption. rewrite H0; lra.
  - apply (Hgen B B); try lra; try assumption. rewrite H0; lra.
  - apply (Hgen a b); try lra; [|assumption]. destruct Ho as [[? ?]|[? ?]]; nra.
  - exists NaN. split; [|left; auto].
    intros fg fb Hfg Hfb. unfold brent_guess. rewrite Eab by assumption. rewrite E. cbn [bind].
    apply brent_nan_bad_range. left; reflexivity.
Qed.

Lemma brent_continuous_root f g a b t :
  a <= b -> 0 < t ->
  (forall x, a <= x <= b -> f (Fin x) = Ok (Fin (g x))) ->
  (forall x, a <= x <= b -> continuity_pt g x) ->
  g a * g b <= 0 ->
  exists x r,
    (forall fuel, 2 * (b - a) / t + 1 <= INR fuel ->
       brent f fuel (Fin a) (Fin b) (Fin t) = Ok (Fin x))
    /\ a <= x <= b /\ a <= r <= b /\ g r = 0
    /\ Rabs (x - r) <= brent_tol x t.
Proof.
  intros Hab Ht Hf Hc Hs.
  destruct (brent_correct f g a b t Hab Ht Hf Hs) as (x & E & Hx & Hr).
  destruct (near_root_continuous g a b x (brent_tol x t)) as (r & H1 & H2 & H3); auto.
  - left. apply brent_tol_pos. assumption.
  - exists x, r. auto.
Qed.

Lemma brent_nan_iff f g a b t fuel :
  0 < t -> 2 * (b - a) / t + 1 <= INR fuel ->
  (forall x, a <= x <= b -> f (Fin x) = Ok (Fin (g x))) ->
  (brent f fuel (Fin a) (Fin b) (Fin t) = Ok NaN <-> (b < a \/ 0 < g a * g b)).
Proof.
  intros Ht Hfuel Hf. destruct (Rlt_dec b a) as [Hba|Hba].
  - split; [auto|]. intros _. apply brent_nan_bad_range. right; right. eauto.
  - destruct (Rlt_dec 0 (g a * g b)) as [Hs|Hs].
    + split; [auto|]. intros _. apply brent_nan_same_sign with g; auto. lra.
    + destruct (brent_correct f g a b t ltac:(lra) Ht Hf ltac:(lra)) as (x & E & _).
      rewrite (E fuel Hfuel). split; [congruence|]. intros [?|?]; lra.
Qed.

Lemma brent_nan_bounds f (a b t : xr) fuel :
  a = NaN \/ b = NaN -> brent f fuel a b t = Ok NaN.
Proof. intros H. apply brent_nan_bad_range. tauto. Qed.

Lemma guess_to_bounds_spec f g (x : xr) A B :
  A <= B -> x <> NaN ->
  (forall x, A <= x <= B -> f (Fin x) = Ok (Fin (g x))) ->
  exists r,
    (forall fuel, (13 <= fuel)%nat -> guess_to_bounds f fuel x (Fin A) (Fin B) = Ok r)
    /\ ((r = (Fin A, Fin A) /\ g A = 0)
        \/ (r = (Fin B, Fin B) /\ g B = 0)
        \/ (exists a b, r = (Fin a, Fin b) /\ A <= a <= b /\ b <= B
               /\ (forall y, x = Fin y -> A <= y <= B -> a <= y <= b)
               /\ opposite (g a) (g b))
        \/ (r = (NaN, NaN) /\ 0 < g A * g B)).
Proof.
  intros HAB Hx Hf.
  destruct (guess_to_bounds_correct f g x A B HAB Hx Hf) as (r & E & H).
  exists r. split; [assumption|].
  destruct H as [H|[H|[(a & b & -> & Ha & Hb & Ho)|H]]]; auto.
  right. right. left. exists a, b. repeat split; try lra; try assumption;
    intros; subst x; cbn [clamp] in *; unfold Rmin, Rmax in *;
    repeat destruct (Rle_dec _ _); lra.
Qed.
