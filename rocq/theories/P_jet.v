(** * Bounds on second derivatives: a reading of the code that carries, for functions of one variable, an interval for the
    values and bounds for the first two derivatives *)
From Coq Require Import ZArith Reals Bool Lia Lra Psatz.
From Coquelicot Require Import Coquelicot.
From Verif Require Import Num Res M_eos_base P_floaterr.
Local Open Scope R_scope.

(** functions, with the operations point by point *)
#[local] Instance fnNum : Num (R -> R) := {|
  add := fun f g x => f x + g x; sub := fun f g x => f x - g x; mul := fun f g x => f x * g x; div := fun f g x => f x / g x;
  opp := fun f x => - f x; fabs := fun f x => Rabs (f x); fsqrt := fun f x => sqrt (f x);
  ltb := fun _ _ => false; leb := fun _ _ => false; eqb := fun _ _ => false;
  isnan := fun _ => false; isfinite := fun _ => true;
  nan := fun _ => 0; ninf := fun _ => 0; ceilZ := fun _ => 0%Z;
  lit := fun m e _ => Rlit m e |}.
Definition f_dv (f g : R -> R) : res (R -> R) := Ok (div f g).

(** bounds are integers, in units of 2^-120 *)
Inductive jet : Type := JTop | Jet (lo hi b1 b2 : Z).

Definition j_add (a b : jet) : jet :=
  match a, b with Jet l1 h1 a1 a2, Jet l2 h2 b1 b2 => Jet (l1 + l2) (h1 + h2) (a1 + b1) (a2 + b2) | _, _ => JTop end.
Definition j_sub (a b : jet) : jet :=
  match a, b with Jet l1 h1 a1 a2, Jet l2 h2 b1 b2 => Jet (l1 - h2) (h1 - l2) (a1 + b1) (a2 + b2) | _, _ => JTop end.
Definition j_mul (a b : jet) : jet :=
  match a, b with
  | Jet l1 h1 a1 a2, Jet l2 h2 b1 b2 =>
      Jet (byU (min4 (l1 * l2) (l1 * h2) (h1 * l2) (h1 * h2)))
          (byU (max4 (l1 * l2) (l1 * h2) (h1 * l2) (h1 * h2)) + 1)
          (byU (a1 * mag l2 h2 + mag l1 h1 * b1) + 1)
          (byU (a2 * mag l2 h2 + 2 * (a1 * b1) + mag l1 h1 * b2) + 1)
  | _, _ => JTop
  end.
Definition j_inv (a : jet) : jet :=
  match a with
  | Jet l h b1 b2 =>
      if (0 <? l)%Z then
        Jet (upU UZ / h) (upU UZ / l + 1) (upU (upU b1) / (l * l) + 1) (upU (upU (b2 * l + 2 * (b1 * b1))) / (l * l * l) + 1)
      else JTop
  | JTop => JTop
  end.
Definition j_div (a b : jet) : jet := j_mul a (j_inv b).
Definition j_sqrt (a : jet) : jet :=
  match a with
  | Jet l h b1 b2 =>
      let q := Z.sqrt (upU l) in
      if (0 <? l)%Z && (0 <? q)%Z then
        Jet q (Z.sqrt (upU h) + 1) (upU b1 / (2 * q) + 1) (upU (2 * b2 * l + b1 * b1) / (4 * l * q) + 1)
      else JTop
  | JTop => JTop
  end.
Definition j_lit (m e : Z) : jet :=
  if (0 <=? e)%Z then Jet (upU (m * 10 ^ e)) (upU (m * 10 ^ e)) 0 0
  else Jet (upU m / 10 ^ (- e)) (upU m / 10 ^ (- e) + 1) 0 0.

#[local] Instance jetNum : Num jet := {|
  add := j_add; sub := j_sub; mul := j_mul; div := j_div;
  opp := fun a => match a with Jet l h b1 b2 => Jet (- h) (- l) b1 b2 | JTop => JTop end;
  fabs := fun _ => JTop; fsqrt := j_sqrt;
  ltb := fun _ _ => false; leb := fun _ _ => false; eqb := fun _ _ => false;
  isnan := fun _ => false; isfinite := fun _ => true;
  nan := JTop; ninf := JTop; ceilZ := fun _ => 0%Z;
  lit := j_lit |}.
Definition j_dv (a b : jet) : res jet :=
  match j_inv b with JTop => Err ZeroDivisionError | _ => Ok (j_div a b) end.

Section Sound.
  Variables (X : R -> Prop) (L x0 : R).
  Hypotheses (L0 : 0 <= L) (X0 : X x0).

  (** the bounds at one point, for a value and two derivatives *)
  Definition at_pt (lo hi b1 b2 : Z) (v d1 d2 : R) : Prop :=
    IZR lo <= v * UR <= IZR hi /\ Rabs d1 * UR <= IZR b1 * L /\ Rabs d2 * UR <= IZR b2 * (L * L).

  Definition jr (a : jet) (F : R -> R) : Prop :=
    match a with
    | JTop => True
    | Jet lo hi b1 b2 => exists F1 F2 : R -> R, forall x, X x ->
        is_derive F x (F1 x) /\ is_derive F1 x (F2 x) /\ at_pt lo hi b1 b2 (F x) (F1 x) (F2 x)
    end.
  Definition jrel (a : jet) (F : R -> R) (v : R) : Prop := jr a F /\ F x0 = v.

  Lemma d_plus (f g : R -> R) a b x : is_derive f x a -> is_derive g x b -> is_derive (fun x => f x + g x) x (a + b).
  Proof. intros; now apply (is_derive_plus (V := R_NormedModule)). Qed.
  Lemma d_minus (f g : R -> R) a b x : is_derive f x a -> is_derive g x b -> is_derive (fun x => f x - g x) x (a - b).
  Proof. intros; now apply (is_derive_minus (V := R_NormedModule)). Qed.
  Lemma d_mult (f g : R -> R) a b x : is_derive f x a -> is_derive g x b -> is_derive (fun x => f x * g x) x (a * g x + f x * b).
  Proof. intros Hf Hg. apply is_derive_Reals. apply is_derive_Reals in Hf, Hg. exact (derivable_pt_lim_mult f g x a b Hf Hg). Qed.
  Lemma d_scal (c : R) (f : R -> R) a x : is_derive f x a -> is_derive (fun x => c * f x) x (c * a).
  Proof. intros H. now apply is_derive_scal. Qed.
  Lemma d_inv (f : R -> R) a x : f x <> 0 -> is_derive f x a -> is_derive (fun x => / f x) x (- a * (/ f x * / f x)).
  Proof.
    intros N H. replace (- a * (/ f x * / f x)) with (- a / f x ^ 2) by (field; exact N). now apply is_derive_inv.
  Qed.
  Lemma d_opp (f : R -> R) a x : is_derive f x a -> is_derive (fun x => - f x) x (- a).
  Proof. intros H. now apply (is_derive_opp (V := R_NormedModule)). Qed.
  Lemma d_sqrt (f : R -> R) a x : 0 < f x -> is_derive f x a -> is_derive (fun x => sqrt (f x)) x (a * (/ 2 * / sqrt (f x))).
  Proof.
    intros P H. apply is_derive_Reals. apply is_derive_Reals in H.
    assert (Q := derivable_pt_lim_comp f sqrt x a _ H (derivable_pt_lim_sqrt (f x) P)).
    replace (a * (/ 2 * / sqrt (f x))) with (/ (2 * sqrt (f x)) * a); [exact Q|].
    field. apply Rgt_not_eq. now apply sqrt_lt_R0.
  Qed.

  Lemma at_add l1 h1 a1 a2 l2 h2 b1 b2 v d1 d2 w e1 e2 : at_pt l1 h1 a1 a2 v d1 d2 -> at_pt l2 h2 b1 b2 w e1 e2 ->
    at_pt (l1 + l2) (h1 + h2) (a1 + b1) (a2 + b2) (v + w) (d1 + e1) (d2 + e2).
  Proof.
    intros (V & D1 & D2) (W & E1 & E2). unfold at_pt. rewrite !plus_IZR. assert (U := UR_pos).
    pose proof (Rabs_triang d1 e1) as T1. pose proof (Rabs_triang d2 e2) as T2.
    apply Rmult_le_compat_r with (r := UR) in T1; [|lra]. apply Rmult_le_compat_r with (r := UR) in T2; [|lra]. repeat split; lra.
  Qed.
  Lemma at_sub l1 h1 a1 a2 l2 h2 b1 b2 v d1 d2 w e1 e2 : at_pt l1 h1 a1 a2 v d1 d2 -> at_pt l2 h2 b1 b2 w e1 e2 ->
    at_pt (l1 - h2) (h1 - l2) (a1 + b1) (a2 + b2) (v - w) (d1 - e1) (d2 - e2).
  Proof.
    intros (V & D1 & D2) (W & E1 & E2). unfold at_pt. rewrite !plus_IZR, !minus_IZR. assert (U := UR_pos).
    pose proof (Rabs_triang d1 (- e1)) as T1. pose proof (Rabs_triang d2 (- e2)) as T2. rewrite Rabs_Ropp in T1, T2.
    apply Rmult_le_compat_r with (r := UR) in T1; [|lra]. apply Rmult_le_compat_r with (r := UR) in T2; [|lra]. unfold Rminus. repeat split; lra.
  Qed.
  Lemma mag_nonneg l h : (0 <= mag l h)%Z. Proof. unfold mag. lia. Qed.

  (** z <= t / UR, rounded up *)
  Lemma byU_up t z : z * UR <= IZR t -> z <= IZR (byU t + 1).
  Proof.
    intros H. rewrite byU_eq, plus_IZR. assert (D := Zdiv_R t UZ UZ_pos). rewrite <- UR_UZ in D. assert (U := UR_pos).
    apply Rle_trans with (IZR t / UR); [apply Rdiv_le_l; assumption|lra].
  Qed.
  Lemma div_up t q z : (0 < q)%Z -> z * IZR q <= IZR t -> z <= IZR (t / q + 1).
  Proof.
    intros Q H. rewrite plus_IZR. assert (D := Zdiv_R t q Q). apply IZR_lt in Q.
    apply Rle_trans with (IZR t / IZR q); [apply Rdiv_le_l; assumption|lra].
  Qed.
  (** bounds times a power of L *)
  Lemma byU_upL t z K : 0 <= K -> z * UR <= IZR t * K -> z <= IZR (byU t + 1) * K.
  Proof.
    intros K0 H. rewrite byU_eq, plus_IZR. assert (D := Zdiv_R t UZ UZ_pos). rewrite <- UR_UZ in D. assert (U := UR_pos).
    apply Rle_trans with (IZR t / UR * K); [|apply Rmult_le_compat_r; lra].
    replace (IZR t / UR * K) with (IZR t * K / UR) by (field; lra). apply Rdiv_le_l; assumption.
  Qed.
  Lemma div_upL t q z K : 0 <= K -> (0 < q)%Z -> z * IZR q <= IZR t * K -> z <= IZR (t / q + 1) * K.
  Proof.
    intros K0 Q H. rewrite plus_IZR. assert (D := Zdiv_R t q Q). apply IZR_lt in Q.
    apply Rle_trans with (IZR t / IZR q * K); [|apply Rmult_le_compat_r; lra].
    replace (IZR t / IZR q * K) with (IZR t * K / IZR q) by (field; lra). apply Rdiv_le_l; assumption.
  Qed.
  Lemma L2_pos : 0 <= L * L. Proof. nra. Qed.

  Lemma at_mul l1 h1 a1 a2 l2 h2 b1 b2 v d1 d2 w e1 e2 : at_pt l1 h1 a1 a2 v d1 d2 -> at_pt l2 h2 b1 b2 w e1 e2 ->
    at_pt (byU (min4 (l1 * l2) (l1 * h2) (h1 * l2) (h1 * h2)))
          (byU (max4 (l1 * l2) (l1 * h2) (h1 * l2) (h1 * h2)) + 1)
          (byU (a1 * mag l2 h2 + mag l1 h1 * b1) + 1)
          (byU (a2 * mag l2 h2 + 2 * (a1 * b1) + mag l1 h1 * b2) + 1) (v * w) (d1 * w + v * e1) ((d2 * w + d1 * e1) + (d1 * e1 + v * e2)).
  Proof.
    intros (V & D1 & D2) (W & E1 & E2). assert (U := UR_pos).
    assert (Mv := mag_ok _ _ _ V). assert (Mw := mag_ok _ _ _ W). rewrite Rabs_mult, (Rabs_pos_eq UR) in Mv, Mw by lra.
    assert (K2 := L2_pos).
    pose proof (Rabs_pos v) as Pv. pose proof (Rabs_pos w) as Pw. pose proof (Rabs_pos d1) as Pd1. pose proof (Rabs_pos d2) as Pd2.
    pose proof (Rabs_pos e1) as Pe1. pose proof (Rabs_pos e2) as Pe2.
    assert (N : forall z, 0 <= z -> 0 <= z * UR) by (intros; apply Rmult_le_pos; lra).
    split; [|split].
    - assert (P := prod_between _ _ _ _ _ _ V W). rewrite <- !mult_IZR, <- min4_R, <- max4_R in P.
      set (mn := min4 _ _ _ _) in *. set (mx := max4 _ _ _ _) in *. clearbody mn mx. split.
      + rewrite byU_eq. assert (D := Zdiv_R mn UZ UZ_pos). rewrite <- UR_UZ in D.
        apply Rle_trans with (IZR mn / UR); [lra|]. apply Rdiv_le_r; [exact U|]. lra.
      + apply byU_up. lra.
    - apply byU_upL; [exact L0|]. rewrite plus_IZR, !mult_IZR.
      assert (T : Rabs (d1 * w + v * e1) <= Rabs d1 * Rabs w + Rabs v * Rabs e1) by (rewrite <- !Rabs_mult; apply Rabs_triang).
      assert (A : (Rabs d1 * UR) * (Rabs w * UR) <= (IZR a1 * L) * IZR (mag l2 h2)) by (apply Rmult_le_compat; auto).
      assert (B : (Rabs v * UR) * (Rabs e1 * UR) <= IZR (mag l1 h1) * (IZR b1 * L)) by (apply Rmult_le_compat; auto).
      apply Rmult_le_compat_r with (r := UR * UR) in T; [|nra]. lra.
    - apply byU_upL; [exact K2|]. rewrite !plus_IZR, !mult_IZR.
      assert (T : Rabs ((d2 * w + d1 * e1) + (d1 * e1 + v * e2)) <= Rabs d2 * Rabs w + 2 * (Rabs d1 * Rabs e1) + Rabs v * Rabs e2).
      { rewrite <- !Rabs_mult. pose proof (Rabs_triang (d2 * w + d1 * e1) (d1 * e1 + v * e2)). pose proof (Rabs_triang (d2 * w) (d1 * e1)).
        pose proof (Rabs_triang (d1 * e1) (v * e2)). lra. }
      assert (A : (Rabs d2 * UR) * (Rabs w * UR) <= (IZR a2 * (L * L)) * IZR (mag l2 h2)) by (apply Rmult_le_compat; auto).
      assert (B : (Rabs v * UR) * (Rabs e2 * UR) <= IZR (mag l1 h1) * (IZR b2 * (L * L))) by (apply Rmult_le_compat; auto).
      assert (C : (Rabs d1 * UR) * (Rabs e1 * UR) <= (IZR a1 * L) * (IZR b1 * L)) by (apply Rmult_le_compat; auto).
      apply Rmult_le_compat_r with (r := UR * UR) in T; [|nra]. lra.
  Qed.

  Lemma upU_IZR z : IZR (upU z) = IZR z * UR. Proof. now rewrite upU_eq, mult_IZR, <- UR_UZ. Qed.

  Lemma at_inv l h b1 b2 v d1 d2 : (0 < l)%Z -> at_pt l h b1 b2 v d1 d2 ->
    at_pt (upU UZ / h) (upU UZ / l + 1) (upU (upU b1) / (l * l) + 1) (upU (upU (b2 * l + 2 * (b1 * b1))) / (l * l * l) + 1)
      (/ v) (- d1 * (/ v * / v)) (- d2 * (/ v * / v) + - d1 * ((- d1 * (/ v * / v)) * / v + / v * (- d1 * (/ v * / v)))).
  Proof.
    intros P (V & D1 & D2). assert (U := UR_pos). apply IZR_lt in P as PR.
    assert (PH : (0 < h)%Z) by (apply lt_IZR; lra).
    assert (Pv : 0 < v) by (apply Rmult_lt_reg_r with UR; lra).
    assert (Iv : 0 < / v) by now apply Rinv_0_lt_compat.
    set (i := / v) in *. assert (Hi : i * v = 1) by (apply Rinv_l; lra).
    (* i * l <= UR *)
    assert (Il : i * IZR l <= UR).
    { apply Rle_trans with (i * (v * UR)); [apply Rmult_le_compat_l; lra|]. rewrite <- Rmult_assoc, Hi. lra. }
    assert (Il0 : 0 <= i * IZR l) by (apply Rmult_le_pos; lra).
    pose proof (Rabs_pos d1) as Pd1. pose proof (Rabs_pos d2) as Pd2. clearbody i.
    split; [split|split].
    - assert (D := Zdiv_R (upU UZ) h PH). rewrite upU_IZR, <- UR_UZ in D. apply IZR_lt in PH.
      apply Rle_trans with (UR * UR / IZR h); [lra|]. apply Rdiv_le_r; [exact PH|].
      apply Rle_trans with (i * (v * UR) * UR); [rewrite <- Rmult_assoc, Hi; lra|].
      assert (i * (v * UR) <= i * IZR h) by (apply Rmult_le_compat_l; lra).
      apply Rmult_le_compat_r with (r := UR) in H; lra.
    - apply div_up; [exact P|]. rewrite upU_IZR, <- UR_UZ. apply Rmult_le_compat_r with (r := UR) in Il; lra.
    - apply div_upL; [exact L0|lia|]. rewrite !upU_IZR, mult_IZR.
      rewrite Rabs_mult, Rabs_Ropp, (Rabs_pos_eq (i * i)) by nra.
      assert (A : (i * IZR l) * (i * IZR l) <= UR * UR) by (apply Rmult_le_compat; lra).
      assert (B : (Rabs d1 * UR) * ((i * IZR l) * (i * IZR l)) <= (IZR b1 * L) * (UR * UR)).
      { apply Rmult_le_compat; try lra; [apply Rmult_le_pos; lra|nra]. }
      lra.
    - apply div_upL; [apply L2_pos|lia|]. rewrite !upU_IZR, plus_IZR, !mult_IZR.
      replace (- d2 * (i * i) + - d1 * (- d1 * (i * i) * i + i * (- d1 * (i * i)))) with (- d2 * (i * i) + 2 * (d1 * d1) * (i * i * i)) by ring.
      assert (T : Rabs (- d2 * (i * i) + 2 * (d1 * d1) * (i * i * i)) <= Rabs d2 * (i * i) + 2 * (Rabs d1 * Rabs d1) * (i * i * i)).
      { eapply Rle_trans; [apply Rabs_triang|]. rewrite !Rabs_mult, Rabs_Ropp, (Rabs_pos_eq i), (Rabs_pos_eq 2) by lra. lra. }
      set (k := i * IZR l) in *.
      assert (A2 : k * k <= UR * UR) by (apply Rmult_le_compat; lra). assert (P2 : 0 <= k * k) by nra.
      assert (A3 : k * k * k <= UR * UR * UR) by (apply Rmult_le_compat; lra). assert (P3 : 0 <= k * k * k) by nra.
      assert (Pu1 : 0 <= Rabs d1 * UR) by (apply Rmult_le_pos; lra). assert (Pu2 : 0 <= Rabs d2 * UR) by (apply Rmult_le_pos; lra).
      assert (B : (Rabs d2 * UR) * (k * k) <= (IZR b2 * (L * L)) * (UR * UR)) by (apply Rmult_le_compat; lra).
      assert (C1 : (Rabs d1 * UR) * (Rabs d1 * UR) <= (IZR b1 * L) * (IZR b1 * L)) by (apply Rmult_le_compat; lra).
      assert (C : ((Rabs d1 * UR) * (Rabs d1 * UR)) * (k * k * k) <= ((IZR b1 * L) * (IZR b1 * L)) * (UR * UR * UR)).
      { apply Rmult_le_compat; try lra. nra. }
      assert (LL : 0 < IZR l * IZR l * IZR l) by (repeat apply Rmult_lt_0_compat; lra).
      apply Rmult_le_compat_r with (r := UR * (IZR l * IZR l * IZR l)) in T; [|apply Rmult_le_pos; lra].
      replace ((Rabs d2 * (i * i) + 2 * (Rabs d1 * Rabs d1) * (i * i * i)) * (UR * (IZR l * IZR l * IZR l)))
        with (Rabs d2 * UR * (k * k) * IZR l + 2 * ((Rabs d1 * Rabs d1 * UR) * (k * k * k))) in T by (unfold k; ring).
      assert (C' : Rabs d1 * Rabs d1 * UR * (k * k * k) <= IZR b1 * L * (IZR b1 * L) * (UR * UR)).
      { apply Rmult_le_reg_r with UR; [exact U|]. lra. }
      apply Rmult_le_compat_r with (r := IZR l) in B; [|lra]. lra.
  Qed.

  Lemma at_sqrt l h b1 b2 v d1 d2 : let q := Z.sqrt (upU l) in (0 < l)%Z -> (0 < q)%Z -> at_pt l h b1 b2 v d1 d2 ->
    at_pt q (Z.sqrt (upU h) + 1) (upU b1 / (2 * q) + 1) (upU (2 * b2 * l + b1 * b1) / (4 * l * q) + 1)
      (sqrt v) (d1 * (/ 2 * / sqrt v)) (d2 * (/ 2 * / sqrt v) + d1 * (/ 2 * (- (d1 * (/ 2 * / sqrt v)) * (/ sqrt v * / sqrt v)))).
  Proof.
    intros q P Q (V & D1 & D2). assert (U := UR_pos). apply IZR_lt in P as PR. apply IZR_lt in Q as QR.
    assert (Pv : 0 < v) by (apply Rmult_lt_reg_r with UR; lra).
    assert (SB := sqrt_between l h v ltac:(lia) V). rewrite <- !upU_eq in SB. fold q in SB.
    assert (Sv : 0 < sqrt v) by now apply sqrt_lt_R0. assert (SS := sqrt_sqrt v (Rlt_le _ _ Pv)).
    set (r := sqrt v) in *. clearbody r q. assert (Ir : 0 < / r) by now apply Rinv_0_lt_compat.
    set (i := / r) in *. assert (Hi : i * r = 1) by (apply Rinv_l; lra). clearbody i.
    assert (Iq : i * IZR q <= UR).
    { apply Rle_trans with (i * (r * UR)); [apply Rmult_le_compat_l; lra|]. rewrite <- Rmult_assoc, Hi. lra. }
    assert (Iq0 : 0 <= i * IZR q) by (apply Rmult_le_pos; lra).
    assert (Il : i * i * IZR l <= UR).
    { apply Rle_trans with (i * i * (v * UR)); [apply Rmult_le_compat_l; nra|]. rewrite <- SS.
      replace (i * i * (r * r * UR)) with ((i * r) * (i * r) * UR) by ring. rewrite Hi. lra. }
    assert (Il0 : 0 <= i * i * IZR l) by (apply Rmult_le_pos; nra).
    pose proof (Rabs_pos d1) as Pd1. pose proof (Rabs_pos d2) as Pd2.
    split; [exact SB|split].
    - apply div_upL; [exact L0|lia|]. rewrite upU_IZR, mult_IZR.
      rewrite Rabs_mult, (Rabs_pos_eq (/ 2 * i)) by lra.
      assert (B : (Rabs d1 * UR) * (i * IZR q) <= (IZR b1 * L) * UR) by (apply Rmult_le_compat; try lra; apply Rmult_le_pos; lra).
      lra.
    - apply div_upL; [apply L2_pos|lia|]. rewrite upU_IZR, plus_IZR, !mult_IZR.
      replace (d2 * (/ 2 * i) + d1 * (/ 2 * (- (d1 * (/ 2 * i)) * (i * i)))) with (d2 * (/ 2 * i) + - (d1 * d1) * (/ 4 * (i * i * i))) by field.
      assert (T : Rabs (d2 * (/ 2 * i) + - (d1 * d1) * (/ 4 * (i * i * i))) <= Rabs d2 * (/ 2 * i) + Rabs d1 * Rabs d1 * (/ 4 * (i * i * i))).
      { eapply Rle_trans; [apply Rabs_triang|]. rewrite !Rabs_mult, Rabs_Ropp, Rabs_mult, (Rabs_pos_eq i), (Rabs_pos_eq (/ 2)), (Rabs_pos_eq (/ 4)) by lra. lra. }
      assert (Pu1 : 0 <= Rabs d1 * UR) by (apply Rmult_le_pos; lra). assert (Pu2 : 0 <= Rabs d2 * UR) by (apply Rmult_le_pos; lra).
      assert (B : (Rabs d2 * UR) * (i * IZR q) <= (IZR b2 * (L * L)) * UR) by (apply Rmult_le_compat; lra).
      assert (C1 : (Rabs d1 * UR) * (Rabs d1 * UR) <= (IZR b1 * L) * (IZR b1 * L)) by (apply Rmult_le_compat; lra).
      assert (C2 : (i * i * IZR l) * (i * IZR q) <= UR * UR) by (apply Rmult_le_compat; lra).
      assert (C : ((Rabs d1 * UR) * (Rabs d1 * UR)) * ((i * i * IZR l) * (i * IZR q)) <= ((IZR b1 * L) * (IZR b1 * L)) * (UR * UR)).
      { apply Rmult_le_compat; try lra; [nra|apply Rmult_le_pos; lra]. }
      assert (LQ : 0 < IZR l * IZR q) by (apply Rmult_lt_0_compat; lra).
      apply Rmult_le_compat_r with (r := UR * (4 * (IZR l * IZR q))) in T; [|apply Rmult_le_pos; lra].
      replace ((Rabs d2 * (/ 2 * i) + Rabs d1 * Rabs d1 * (/ 4 * (i * i * i))) * (UR * (4 * (IZR l * IZR q))))
        with (2 * (Rabs d2 * UR * (i * IZR q) * IZR l) + Rabs d1 * Rabs d1 * UR * ((i * i * IZR l) * (i * IZR q))) in T by field.
      assert (C' : Rabs d1 * Rabs d1 * UR * ((i * i * IZR l) * (i * IZR q)) <= IZR b1 * L * (IZR b1 * L) * UR).
      { apply Rmult_le_reg_r with UR; [exact U|]. lra. }
      apply Rmult_le_compat_r with (r := IZR l) in B; [|lra]. lra.
  Qed.

  Lemma jr_add a b F G : jr a F -> jr b G -> jr (add a b) (add F G).
  Proof.
    intros A B. cbn. destruct a as [|l1 h1 a1 a2]; [exact I|]. destruct b as [|l2 h2 b1 b2]; [exact I|]. destruct A as (F1 & F2 & A), B as (G1 & G2 & B).
    exists (fun x => F1 x + G1 x), (fun x => F2 x + G2 x). intros x Hx. destruct (A x Hx) as (A1 & A2 & A3), (B x Hx) as (B1 & B2 & B3).
    split; [now apply d_plus|]. split; [now apply d_plus|]. now apply at_add.
  Qed.
  Lemma jr_sub a b F G : jr a F -> jr b G -> jr (sub a b) (sub F G).
  Proof.
    intros A B. cbn. destruct a as [|l1 h1 a1 a2]; [exact I|]. destruct b as [|l2 h2 b1 b2]; [exact I|]. destruct A as (F1 & F2 & A), B as (G1 & G2 & B).
    exists (fun x => F1 x - G1 x), (fun x => F2 x - G2 x). intros x Hx. destruct (A x Hx) as (A1 & A2 & A3), (B x Hx) as (B1 & B2 & B3).
    split; [now apply d_minus|]. split; [now apply d_minus|]. now apply at_sub.
  Qed.
  Lemma jr_mul a b F G : jr a F -> jr b G -> jr (mul a b) (mul F G).
  Proof.
    intros A B. cbn. destruct a as [|l1 h1 a1 a2]; [exact I|]. destruct b as [|l2 h2 b1 b2]; [exact I|]. destruct A as (F1 & F2 & A), B as (G1 & G2 & B).
    exists (fun x => F1 x * G x + F x * G1 x), (fun x => (F2 x * G x + F1 x * G1 x) + (F1 x * G1 x + F x * G2 x)).
    intros x Hx. destruct (A x Hx) as (A1 & A2 & A3), (B x Hx) as (B1 & B2 & B3).
    split; [now apply d_mult|]. split; [apply d_plus; now apply d_mult|]. now apply at_mul.
  Qed.
  Lemma jr_inv a F : jr a F -> jr (j_inv a) (fun x => / F x).
  Proof.
    intros A. destruct a as [|l h b1 b2]; [exact I|]. cbn [j_inv]. destruct (Z.ltb_spec 0 l) as [P|]; [|exact I]. destruct A as (F1 & F2 & A).
    exists (fun x => - F1 x * (/ F x * / F x)),
      (fun x => - F2 x * (/ F x * / F x) + - F1 x * ((- F1 x * (/ F x * / F x)) * / F x + / F x * (- F1 x * (/ F x * / F x)))).
    intros x Hx. destruct (A x Hx) as (A1 & A2 & A3).
    assert (N : F x <> 0). { destruct A3 as (V & _). apply IZR_lt in P. pose proof UR_pos. intros E. rewrite E in V. lra. }
    split; [now apply d_inv|]. split; [|now apply at_inv].
    apply (d_mult (fun x => - F1 x) (fun x => / F x * / F x)); [now apply d_opp|]. apply (d_mult (fun x => / F x) (fun x => / F x)); now apply d_inv.
  Qed.
  Lemma jr_sqrt a F : jr a F -> jr (fsqrt a) (fsqrt F).
  Proof.
    intros A. destruct a as [|l h b1 b2]; [exact I|]. cbn [fsqrt jetNum fnNum j_sqrt]. destruct (Z.ltb_spec 0 l) as [P|]; [|exact I].
    destruct (Z.ltb_spec 0 (Z.sqrt (upU l))) as [Q|]; [|exact I]. cbn [andb]. destruct A as (F1 & F2 & A).
    exists (fun x => F1 x * (/ 2 * / sqrt (F x))),
      (fun x => F2 x * (/ 2 * / sqrt (F x)) + F1 x * (/ 2 * (- (F1 x * (/ 2 * / sqrt (F x))) * (/ sqrt (F x) * / sqrt (F x))))).
    intros x Hx. destruct (A x Hx) as (A1 & A2 & A3).
    assert (N : 0 < F x). { destruct A3 as (V & _). apply IZR_lt in P. pose proof UR_pos. apply Rmult_lt_reg_r with UR; lra. }
    split; [now apply d_sqrt|]. split; [|now apply at_sqrt].
    apply (d_mult F1 (fun x => / 2 * / sqrt (F x))); [exact A2|]. apply (d_scal (/ 2) (fun x => / sqrt (F x))).
    apply (d_inv (fun x => sqrt (F x))); [apply Rgt_not_eq; now apply sqrt_lt_R0|]. now apply d_sqrt.
  Qed.
  Lemma jr_const lo hi c : IZR lo <= c * UR <= IZR hi -> jr (Jet lo hi 0 0) (fun _ => c).
  Proof.
    intros H. exists (fun _ => 0), (fun _ => 0). intros x Hx. split; [apply (is_derive_const (V := R_NormedModule))|].
    split; [apply (is_derive_const (V := R_NormedModule))|]. unfold at_pt. rewrite Rabs_R0. lra.
  Qed.
  Lemma jr_lit m e : jr (lit m e) (lit m e).
  Proof.
    cbn. unfold j_lit, Rlit. rewrite ?upU_eq. destruct (Z.leb_spec 0 e) as [E|E]; apply jr_const.
    - rewrite !mult_IZR, <- UR_UZ. lra.
    - assert (P : (0 < 10 ^ (- e))%Z) by (apply Z.pow_pos_nonneg; lia).
      assert (D := Zdiv_R (m * UZ) (10 ^ (- e)) P). rewrite mult_IZR, <- UR_UZ in D.
      rewrite plus_IZR. change (IZR 1) with 1. apply IZR_lt in P.
      replace (IZR m / IZR (10 ^ (- e)) * UR) with (IZR m * UR / IZR (10 ^ (- e))) by (field; lra). exact D.
  Qed.

  Lemma jrel_add a b F G v w : jrel a F v -> jrel b G w -> jrel (add a b) (add F G) (add v w).
  Proof. intros [A1 <-] [B1 <-]. split; [now apply jr_add|reflexivity]. Qed.
  Lemma jrel_sub a b F G v w : jrel a F v -> jrel b G w -> jrel (sub a b) (sub F G) (sub v w).
  Proof. intros [A1 <-] [B1 <-]. split; [now apply jr_sub|reflexivity]. Qed.
  Lemma jrel_mul a b F G v w : jrel a F v -> jrel b G w -> jrel (mul a b) (mul F G) (mul v w).
  Proof. intros [A1 <-] [B1 <-]. split; [now apply jr_mul|reflexivity]. Qed.
  Lemma jrel_sqrt a F v : jrel a F v -> jrel (fsqrt a) (fsqrt F) (fsqrt v).
  Proof. intros [A1 <-]. split; [now apply jr_sqrt|reflexivity]. Qed.
  Lemma jrel_lit m e : jrel (lit m e) (lit m e) (lit m e).
  Proof. split; [apply jr_lit|reflexivity]. Qed.
  Lemma jrel_pow n a F v : jrel a F v -> jrel (fpow a n) (fpow F n) (fpow v n).
  Proof.
    intros H. induction n as [|n IH]; [apply jrel_lit|]. destruct n as [|n]; [exact H|].
    change (fpow a (S (S n))) with (mul (fpow a (S n)) a). change (fpow F (S (S n))) with (mul (fpow F (S n)) F).
    change (fpow v (S (S n))) with (mul (fpow v (S n)) v). now apply jrel_mul.
  Qed.
  Lemma jrel_dv dr a b F G v w : dr = sdiv \/ dr = adiv -> jrel a F v -> jrel b G w ->
    rrel jrel (j_dv a b) (f_dv F G) (dr v w).
  Proof.
    intros Hr [A1 A2] [B1 B2]. unfold j_dv. assert (K := jr_inv b G B1).
    destruct (j_inv b) as [|l h c1 c2] eqn:E; [exact I|]. rewrite <- E in K.
    assert (W0 : w <> 0).
    { destruct b as [|l2 h2 e1 e2]; [discriminate|]. cbn [j_inv] in E. destruct (Z.ltb_spec 0 l2) as [P|]; [|discriminate].
      destruct B1 as (G1 & G2 & B1). destruct (B1 x0 X0) as (_ & _ & (V & _)). rewrite B2 in V. apply IZR_lt in P. pose proof UR_pos.
      intros Z. rewrite Z in V. lra. }
    exists (div F G), (v / w). split; [reflexivity|]. split.
    - destruct Hr as [-> | ->]; [|reflexivity]. unfold sdiv. simpl. unfold Reqb, zero. simpl. unfold Rlit. simpl.
      destruct (Req_EM_T w (0 * 1)) as [Z|Z]; [lra|reflexivity].
    - split; [|cbn; now rewrite A2, B2]. exact (jr_mul a (j_inv b) F (fun x => / G x) A1 K).
  Qed.
End Sound.

Ltac jrel1 :=
  lazymatch goal with
  | |- jrel _ _ _ (add _ _) _ _ => apply jrel_add
  | |- jrel _ _ _ (sub _ _) _ _ => apply jrel_sub
  | |- jrel _ _ _ (mul _ _) _ _ => apply jrel_mul; [assumption| |]
  | |- jrel _ _ _ (fsqrt _) _ _ => apply jrel_sqrt; [assumption|]
  | |- jrel _ _ _ (lit _ _) _ _ => apply jrel_lit
  | |- jrel _ _ _ (fpow _ _) _ _ => apply jrel_pow; [assumption|]
  | |- jrel _ _ _ _ _ _ => assumption
  end.
