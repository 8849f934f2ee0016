(** * TEOS-10 specific volume: values and all derivatives up to the third *)
From Coq Require Import ZArith Reals Lra Lia List.
From Verif Require Import Num Res M_eos_base M_gsw S_eos P_eos P_jmd95.
Import ListNotations.
Open Scope R_scope.

Definition sf : R := dec 248826675584615 (-16).
Definition off : R := dec 5971840214030754 (-16).
Definition tf : R := dec 25 (-3).
Definition pf : R := dec 1 (-4).

(** derivatives in x^2, where x = sqrt (x^2), of a polynomial in x *)
Definition D (a : nat) (l : list mono) (x y z : R) : R :=
  match a with
  | 0 => poly l x y z
  | 1 => poly (d1 l) x y z / (2 * x)
  | 2 => poly (d1 (d1 l)) x y z / (4 * (x * x)) - poly (d1 l) x y z / (4 * (x * x * x))
  | _ => poly (d1 (d1 (d1 l))) x y z / (8 * (x * x * x))
         - 3 * poly (d1 (d1 l)) x y z / (8 * (x * x * x * x))
         + 3 * poly (d1 l) x y z / (8 * (x * x * x * x * x))
  end.

Lemma d1_d2 : forall l x y z, poly (d2 (d1 l)) x y z = poly (d1 (d2 l)) x y z.
Proof.
  intros l x y z. induction l as [|[c [[i j] k]] l IH]; unfold poly, d1, d2, d3 in *; cbn [map fold_right] in *;
    [reflexivity|].
  rewrite IH. ring.
Qed.

Lemma d1_d3 : forall l x y z, poly (d3 (d1 l)) x y z = poly (d1 (d3 l)) x y z.
Proof.
  intros l x y z. induction l as [|[c [[i j] k]] l IH]; unfold poly, d1, d2, d3 in *; cbn [map fold_right] in *;
    [reflexivity|].
  rewrite IH. ring.
Qed.

Lemma d2_d3 : forall l, d3 (d2 l) = map (fun '(c, (i, j, k)) => (c * INR j * INR k, (i, pred j, pred k))) l.
Proof.
  intros l. unfold d2, d3. rewrite map_map. apply map_ext. intros [c [[i j] k]]. reflexivity.
Qed.

(** equality of polynomials term by term is inherited by d1 *)
Lemma d1_ext : forall l l', (forall x y z, poly l x y z = poly l' x y z) ->
  forall x y z, poly (d1 l) x y z = poly (d1 l') x y z.
Proof.
  intros l l' H x y z.
  eapply uniqueness_limite; [apply poly_d1|].
  apply (lim_ext (fun x => poly l' x y z)); [intro; symmetry; apply H|]. apply poly_d1.
Qed.

Lemma d2_ext : forall l l', (forall x y z, poly l x y z = poly l' x y z) ->
  forall x y z, poly (d2 l) x y z = poly (d2 l') x y z.
Proof.
  intros l l' H x y z.
  eapply uniqueness_limite; [apply poly_d2|].
  apply (lim_ext (fun y => poly l' x y z)); [intro; symmetry; apply H|]. apply poly_d2.
Qed.

Lemma d3_ext : forall l l', (forall x y z, poly l x y z = poly l' x y z) ->
  forall x y z, poly (d3 l) x y z = poly (d3 l') x y z.
Proof.
  intros l l' H x y z.
  eapply uniqueness_limite; [apply poly_d3|].
  apply (lim_ext (fun z => poly l' x y z)); [intro; symmetry; apply H|]. apply poly_d3.
Qed.

Lemma D_ext : forall a l l', (forall x y z, poly l x y z = poly l' x y z) ->
  forall x y z, D a l x y z = D a l' x y z.
Proof.
  intros a l l' H x y z.
  pose proof (d1_ext l l' H) as H1. pose proof (d1_ext _ _ H1) as H2.
  pose proof (d1_ext _ _ H2) as H3.
  destruct a as [|[|[|a]]]; cbn [D]; rewrite ?H, ?H1, ?H2, ?H3; reflexivity.
Qed.

Lemma lim_sub : forall f g x l l', derivable_pt_lim f x l -> derivable_pt_lim g x l' ->
  derivable_pt_lim (fun y => f y - g y) x (l - l').
Proof. exact derivable_pt_lim_minus. Qed.

Lemma D_x : forall a l x y z, (a < 3)%nat -> x <> 0 ->
  derivable_pt_lim (fun x => D a l x y z) x (2 * x * D (S a) l x y z).
Proof.
  intros a l x y z Ha Hx.
  assert (HX : derivable_pt_lim (fun x => x) x 1) by apply lim_id.
  assert (Hx2 : x * x <> 0) by (apply Rmult_integral_contrapositive; lra).
  assert (Hx3 : x * x * x <> 0) by (apply Rmult_integral_contrapositive; lra).
  destruct a as [|[|[|a]]]; [| | |lia]; cbn [D].
  - eapply lim_eq; [apply poly_d1|]. field. exact Hx.
  - eapply lim_eq.
    + apply lim_div; [apply poly_d1|apply lim_scal; exact HX|lra].
    + unfold Rsqr. field. exact Hx.
  - eapply lim_eq.
    + apply lim_sub; (apply lim_div; [apply poly_d1|apply lim_scal|lra]).
      * apply lim_mul; exact HX.
      * apply lim_mul; [apply lim_mul; exact HX|exact HX].
    + unfold Rsqr. field. exact Hx.
Qed.

Lemma D_y : forall a l x y z, derivable_pt_lim (fun y => D a l x y z) y (D a (d2 l) x y z).
Proof.
  intros a l x y z.
  assert (H1 : derivable_pt_lim (fun y => poly (d1 l) x y z) y (poly (d1 (d2 l)) x y z)).
  { rewrite <- d1_d2. apply poly_d2. }
  assert (H2 : derivable_pt_lim (fun y => poly (d1 (d1 l)) x y z) y (poly (d1 (d1 (d2 l))) x y z)).
  { rewrite <- (d1_ext _ _ (d1_d2 l)). rewrite <- d1_d2. apply poly_d2. }
  assert (H3 : derivable_pt_lim (fun y => poly (d1 (d1 (d1 l))) x y z) y
                 (poly (d1 (d1 (d1 (d2 l)))) x y z)).
  { rewrite <- (d1_ext _ _ (d1_ext _ _ (d1_d2 l))).
    rewrite <- (d1_ext _ _ (d1_d2 (d1 l))). rewrite <- d1_d2. apply poly_d2. }
  assert (Hc : forall (f : R -> R) (c l : R), derivable_pt_lim f y l ->
            derivable_pt_lim (fun y => f y / c) y (l / c)).
  { intros f c m Hf. apply (lim_ext (fun y => / c * f y)); [intro; unfold Rdiv; ring|].
    eapply lim_eq; [apply lim_scal; exact Hf|]. unfold Rdiv; ring. }
  destruct a as [|[|[|a]]]; cbn [D].
  - apply poly_d2.
  - apply Hc, H1.
  - apply lim_sub; apply Hc; assumption.
  - apply lim_add; [apply lim_sub|]; apply Hc; try apply lim_scal; assumption.
Qed.

Lemma D_z : forall a l x y z, derivable_pt_lim (fun z => D a l x y z) z (D a (d3 l) x y z).
Proof.
  intros a l x y z.
  assert (H1 : derivable_pt_lim (fun z => poly (d1 l) x y z) z (poly (d1 (d3 l)) x y z)).
  { rewrite <- d1_d3. apply poly_d3. }
  assert (H2 : derivable_pt_lim (fun z => poly (d1 (d1 l)) x y z) z (poly (d1 (d1 (d3 l))) x y z)).
  { rewrite <- (d1_ext _ _ (d1_d3 l)). rewrite <- d1_d3. apply poly_d3. }
  assert (H3 : derivable_pt_lim (fun z => poly (d1 (d1 (d1 l))) x y z) z
                 (poly (d1 (d1 (d1 (d3 l)))) x y z)).
  { rewrite <- (d1_ext _ _ (d1_ext _ _ (d1_d3 l))).
    rewrite <- (d1_ext _ _ (d1_d3 (d1 l))). rewrite <- d1_d3. apply poly_d3. }
  assert (Hc : forall (f : R -> R) (c l : R), derivable_pt_lim f z l ->
            derivable_pt_lim (fun z => f z / c) z (l / c)).
  { intros f c m Hf. apply (lim_ext (fun y => / c * f y)); [intro; unfold Rdiv; ring|].
    eapply lim_eq; [apply lim_scal; exact Hf|]. unfold Rdiv; ring. }
  destruct a as [|[|[|a]]]; cbn [D].
  - apply poly_d3.
  - apply Hc, H1.
  - apply lim_sub; apply Hc; assumption.
  - apply lim_add; [apply lim_sub|]; apply Hc; try apply lim_scal; assumption.
Qed.

(** the derivative of order a in SA, b in CT, c in p *)
Definition teos_d (a b c : nat) (s t p : R) : R :=
  D a (Nat.iter c d3 (Nat.iter b d2 teos_terms)) (teos_x (Rmax s 0)) (t * tf) (p * pf)
  * sf ^ a * tf ^ b * pf ^ c.

Lemma sf_pos : 0 < sf.
Proof. unfold sf, dec. cbn [powerRZ]. apply Rmult_lt_0_compat; [lra|]. apply Rinv_0_lt_compat, pow_lt. lra. Qed.
Lemma off_pos : 0 < off.
Proof. unfold off, dec. cbn [powerRZ]. apply Rmult_lt_0_compat; [lra|]. apply Rinv_0_lt_compat, pow_lt. lra. Qed.

Lemma x2_pos : forall s, 0 <= s -> 0 < sf * s + off.
Proof.
  intros s Hs. pose proof sf_pos. pose proof off_pos.
  pose proof (Rmult_le_pos sf s ltac:(lra) Hs). lra.
Qed.

Lemma teos_x_pos : forall s, 0 < teos_x (Rmax s 0).
Proof. intro s. apply sqrt_lt_R0. apply (x2_pos (Rmax s 0)). apply Rmax_r. Qed.

Lemma teos_x_sq : forall s, teos_x (Rmax s 0) * teos_x (Rmax s 0) = sf * Rmax s 0 + off.
Proof. intro s. apply sqrt_sqrt. apply Rlt_le, (x2_pos (Rmax s 0)). apply Rmax_r. Qed.

Lemma iter_comm : forall c l, (forall x y z, poly (d2 (Nat.iter c d3 l)) x y z = poly (Nat.iter c d3 (d2 l)) x y z).
Proof.
  induction c as [|c IH]; intros l x y z; [reflexivity|].
  change (poly (d2 (d3 (Nat.iter c d3 l))) x y z = poly (d3 (Nat.iter c d3 (d2 l))) x y z).
  rewrite <- (d3_ext _ _ (IH l)).
  generalize (Nat.iter c d3 l) as m. intro m. clear IH.
  induction m as [|[k [[i j] h]] m IHm]; unfold poly, d1, d2, d3 in *; cbn [map fold_right] in *;
    [reflexivity|].
  rewrite IHm. ring.
Qed.

Lemma teos_diff_s : forall a b c s t p, (a < 3)%nat -> 0 < s ->
  diff_s (teos_d a b c) s t p (teos_d (S a) b c s t p).
Proof.
  intros a b c s t p Ha Hs. unfold diff_s, teos_d.
  set (l := Nat.iter c d3 (Nat.iter b d2 teos_terms)).
  apply (lim_local (fun s => (sf ^ a * tf ^ b * pf ^ c) * D a l (teos_x s) (t * tf) (p * pf)) _ s _ s Hs).
  { intros y Hy. rewrite Rmax_left; [ring|]. apply Rabs_def2 in Hy. lra. }
  rewrite Rmax_left by lra.
  assert (Hx : 0 < teos_x s).
  { pose proof (teos_x_pos s) as H. rewrite Rmax_left in H by lra. exact H. }
  eapply lim_eq.
  - apply lim_scal.
    apply (lim_comp teos_x (fun x => D a l x (t * tf) (p * pf))); [|apply D_x; [exact Ha|lra]].
    unfold teos_x.
    apply (lim_comp (fun s => dec 248826675584615 (-16) * s + dec 5971840214030754 (-16)) sqrt).
    + apply lim_add; [apply lim_scal, lim_id|apply lim_const].
    + apply lim_sqrt. apply (x2_pos s). lra.
  - fold (teos_x s). fold sf. cbn [pow]. field. lra.
Qed.

Lemma teos_diff_t : forall a b c s t p, diff_t (teos_d a b c) s t p (teos_d a (S b) c s t p).
Proof.
  intros a b c s t p. unfold diff_t, teos_d.
  set (x := teos_x (Rmax s 0)).
  apply (lim_ext (fun t => (sf ^ a * tf ^ b * pf ^ c) * D a (Nat.iter c d3 (Nat.iter b d2 teos_terms)) x (t * tf) (p * pf))); [intro; ring|].
  eapply lim_eq.
  - apply lim_scal.
    apply (lim_comp (fun t => t * tf) (fun y => D a (Nat.iter c d3 (Nat.iter b d2 teos_terms)) x y (p * pf))).
    + apply lim_mul; [apply lim_id|apply lim_const].
    + apply D_y.
  - cbn [pow]. cbn beta.
    rewrite (D_ext a _ _ (iter_comm c (Nat.iter b d2 teos_terms))). change (Nat.iter (S b) d2 teos_terms) with (d2 (Nat.iter b d2 teos_terms)). ring.
Qed.

Lemma teos_diff_p : forall a b c s t p, diff_p (teos_d a b c) s t p (teos_d a b (S c) s t p).
Proof.
  intros a b c s t p. unfold diff_p, teos_d.
  set (x := teos_x (Rmax s 0)).
  apply (lim_ext (fun p => (sf ^ a * tf ^ b * pf ^ c) * D a (Nat.iter c d3 (Nat.iter b d2 teos_terms)) x (t * tf) (p * pf))); [intro; ring|].
  eapply lim_eq.
  - apply lim_scal.
    apply (lim_comp (fun t => t * pf) (fun z => D a (Nat.iter c d3 (Nat.iter b d2 teos_terms)) x (t * tf) z)).
    + apply lim_mul; [apply lim_id|apply lim_const].
    + apply D_z.
  - cbn [pow].
    change (Nat.iter (S c) d3 (Nat.iter b d2 teos_terms)) with (d3 (Nat.iter c d3 (Nat.iter b d2 teos_terms))).
    ring.
Qed.
