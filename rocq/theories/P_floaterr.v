(** * Running error analysis: a third reading of the code, carrying for every intermediate
    result an interval for its exact value and a bound for its rounding error *)
From Coq Require Import ZArith Reals Bool Lia Lra Psatz SpecFloat.
From Verif Require Import Num SF Res M_eos_base S_float P_float.
Open Scope R_scope.

(** bounds are integers, in units of 2^-120 *)
Definition UZ : Z := Eval vm_compute in (2 ^ 120)%Z.
Definition UR : R := IZR UZ.
Lemma UZ_pos : (0 < UZ)%Z. Proof. reflexivity. Qed.
Lemma UR_pos : 0 < UR. Proof. apply (IZR_lt 0). reflexivity. Qed.
#[global] Opaque UZ.
#[global] Opaque UR.

Inductive ev : Type := Top | Ev (lo hi er : Z).

Definition rel (a : ev) (x : f64) (v : R) : Prop :=
  match a with
  | Top => True
  | Ev lo hi er => finite64 x /\ IZR lo <= v * UR <= IZR hi /\ Rabs (fval x - v) * UR <= IZR er
  end.

Definition mag (lo hi : Z) : Z := Z.max (Z.abs lo) (Z.abs hi).
Definition u53 : Z := Eval vm_compute in (2 ^ 53)%Z.
Definition top_at : Z := Eval vm_compute in (2 ^ 1120)%Z.
(** division and multiplication by powers of two *)
Definition by53 (z : Z) : Z := Z.shiftr z 53.
Definition byU (z : Z) : Z := Z.shiftr z 120.
Definition upU (z : Z) : Z := Z.shiftl z 120.
Lemma by53_eq z : by53 z = (z / u53)%Z. Proof. unfold by53. now rewrite Z.shiftr_div_pow2 by lia. Qed.
Lemma byU_eq z : byU z = (z / UZ)%Z.
Proof. unfold byU. rewrite Z.shiftr_div_pow2 by lia. Transparent UZ. reflexivity. Opaque UZ. Qed.
Lemma upU_eq z : upU z = (z * UZ)%Z.
Proof. unfold upU. rewrite Z.shiftl_mul_pow2 by lia. Transparent UZ. reflexivity. Opaque UZ. Qed.
#[global] Opaque by53 byU upU.

Definition mk (lo hi er : Z) : ev :=
  let m := (mag lo hi + er)%Z in
  if (m <=? top_at)%Z then Ev lo hi (er + by53 m + 2)%Z else Top.

Definition min4 (a b c d : Z) := Z.min (Z.min a b) (Z.min c d).
Definition max4 (a b c d : Z) := Z.max (Z.max a b) (Z.max c d).

Definition e_add (a b : ev) : ev :=
  match a, b with
  | Ev l1 h1 e1, Ev l2 h2 e2 => mk (l1 + l2) (h1 + h2) (e1 + e2)
  | _, _ => Top
  end.
Definition e_sub (a b : ev) : ev :=
  match a, b with
  | Ev l1 h1 e1, Ev l2 h2 e2 => mk (l1 - h2) (h1 - l2) (e1 + e2)
  | _, _ => Top
  end.
Definition e_mul (a b : ev) : ev :=
  match a, b with
  | Ev l1 h1 e1, Ev l2 h2 e2 =>
      mk (byU (min4 (l1 * l2) (l1 * h2) (h1 * l2) (h1 * h2)))
         (byU (max4 (l1 * l2) (l1 * h2) (h1 * l2) (h1 * h2)) + 1)
         (byU (mag l1 h1 * e2 + mag l2 h2 * e1 + e1 * e2) + 1)
  | _, _ => Top
  end.
Definition e_div (a b : ev) : ev :=
  match a, b with
  | Ev l1 h1 e1, Ev l2 h2 e2 =>
      if (0 <? l2 - e2)%Z && (0 <? l2)%Z then
        mk (if (0 <=? l1)%Z then upU (l1) / h2 else upU (l1) / l2)
           ((if (0 <=? h1)%Z then upU (h1) / l2 else upU (h1) / h2) + 1)
           (upU (e1) / (l2 - e2) + 1 + (upU (mag l1 h1 * e2) / ((l2 - e2) * l2) + 1))
      else Top
  | _, _ => Top
  end.
Definition e_sqrt (a : ev) : ev :=
  match a with
  | Ev l h e =>
      if (0 <=? l)%Z && (e =? 0)%Z then mk (Z.sqrt (upU (l))) (Z.sqrt (upU (h)) + 1) 0
      else if (e <? l)%Z && (0 <=? e)%Z && (0 <? Z.sqrt (upU (l)))%Z then
        mk (Z.sqrt (upU (l))) (Z.sqrt (upU (h)) + 1) (upU (e) / Z.sqrt (upU (l)) + 1)
      else Top
  | Top => Top
  end.
Definition e_lit (m e : Z) : ev :=
  if (0 <=? e)%Z then mk (upU (m * 10 ^ e)) (upU (m * 10 ^ e)) 0
  else mk (upU (m) / 10 ^ (- e)) (upU (m) / 10 ^ (- e) + 1) 0.

#[export] Instance evNum : Num ev := {|
  add := e_add; sub := e_sub; mul := e_mul; div := e_div;
  opp := fun a => match a with Ev l h e => Ev (- h) (- l) e | Top => Top end;
  fabs := fun _ => Top; fsqrt := e_sqrt;
  ltb := fun _ _ => false; leb := fun _ _ => false; eqb := fun _ _ => false;
  isnan := fun _ => false; isfinite := fun _ => true;
  nan := Top; ninf := Top; ceilZ := fun _ => 0%Z;
  lit := e_lit |}.

(** division that stops when nothing is known of the quotient *)
Definition e_dv (a b : ev) : res ev :=
  match e_div a b with Top => Err ZeroDivisionError | Ev l h e => Ok (Ev l h e) end.

(** ** soundness *)
Lemma mag_ok lo hi v : IZR lo <= v <= IZR hi -> Rabs v <= IZR (mag lo hi).
Proof.
  intros [A B]. unfold mag.
  assert (L : (- Z.max (Z.abs lo) (Z.abs hi) <= lo)%Z) by lia.
  assert (H : (hi <= Z.max (Z.abs lo) (Z.abs hi))%Z) by lia.
  apply IZR_le in L. apply IZR_le in H. rewrite opp_IZR in L.
  apply Rabs_le. lra.
Qed.

Lemma Zdiv_R a b : (0 < b)%Z -> IZR (a / b) <= IZR a / IZR b <= IZR (a / b) + 1.
Proof.
  intros P. assert (D := Z_div_mod_eq_full a b). assert (M := Z.mod_pos_bound a b P).
  apply IZR_lt in P.
  assert (E : IZR a = IZR b * IZR (a / b) + IZR (a mod b)) by (rewrite <- mult_IZR, <- plus_IZR; f_equal; exact D).
  destruct M as [M1 M2]. apply IZR_le in M1. apply IZR_lt in M2.
  assert (Q : IZR a / IZR b = IZR (a / b) + IZR (a mod b) / IZR b) by (rewrite E; field; lra).
  rewrite Q. assert (0 <= IZR (a mod b) / IZR b) by (apply Rmult_le_pos; [lra|left; now apply Rinv_0_lt_compat]).
  assert (IZR (a mod b) / IZR b <= 1).
  { apply Rmult_le_reg_r with (IZR b); [exact P|]. unfold Rdiv. rewrite Rmult_assoc, Rinv_l by lra. lra. }
  lra.
Qed.

Lemma Rdiv_le_r a b c : 0 < b -> a <= c * b -> a / b <= c.
Proof. intros P H. apply Rmult_le_reg_r with b; [exact P|]. unfold Rdiv. rewrite Rmult_assoc, Rinv_l by lra. lra. Qed.
Lemma Rdiv_le_l a b c : 0 < b -> c * b <= a -> c <= a / b.
Proof. intros P H. apply Rmult_le_reg_r with b; [exact P|]. unfold Rdiv. rewrite Rmult_assoc, Rinv_l by lra. lra. Qed.

Lemma div_cross a b c d : 0 < b -> 0 < d -> a * d <= c * b -> a / b <= c / d.
Proof.
  intros B D H. apply Rdiv_le_r; [exact B|]. replace (c / d * b) with (c * b / d) by (field; lra). now apply Rdiv_le_l.
Qed.

Lemma UR_UZ : UR = IZR UZ. Proof. Transparent UR. reflexivity. Opaque UR. Qed.

Lemma UR_val : UR = powerRZ 2 120.
Proof.
  Transparent UZ UR. unfold UR, UZ. rewrite <- (Raux.bpow_powerRZ Zaux.radix2).
  rewrite <- Raux.IZR_Zpower by lia. apply f_equal. vm_compute. reflexivity. Opaque UZ UR.
Qed.

Lemma top_val : IZR top_at = big64 * UR.
Proof.
  rewrite UR_val. unfold big64, top_at.
  rewrite <- !(Raux.bpow_powerRZ Zaux.radix2), <- Raux.bpow_plus. rewrite <- Raux.IZR_Zpower by lia. apply f_equal. vm_compute. reflexivity.
Qed.

Lemma eta_val : eta64 * UR <= 1.
Proof.
  rewrite UR_val. unfold eta64.
  rewrite <- !(Raux.bpow_powerRZ Zaux.radix2), <- Raux.bpow_plus.
  change 1 with (Raux.bpow Zaux.radix2 0). apply Raux.bpow_le. lia.
Qed.

Lemma u53_val : u64 = / IZR u53. Proof. reflexivity. Qed.

Lemma mk_ok lo hi er z w v :
  (Rabs w <= big64 -> near z w) -> IZR lo <= v * UR <= IZR hi -> Rabs (w - v) * UR <= IZR er ->
  rel (mk lo hi er) z v.
Proof.
  intros N V E. unfold mk. cbv zeta. rewrite by53_eq. destruct (Z.leb_spec (mag lo hi + er) top_at) as [T|]; [|exact I].
  apply IZR_le in T. rewrite plus_IZR, top_val in T.
  assert (U := UR_pos).
  assert (M := mag_ok lo hi (v * UR) V). rewrite Rabs_mult, (Rabs_pos_eq UR) in M by lra.
  assert (W : Rabs w * UR <= IZR (mag lo hi) + IZR er).
  { assert (Tr : Rabs w <= Rabs v + Rabs (w - v)).
    { replace w with (v + (w - v)) at 1 by ring. apply Rabs_triang. }
    apply Rmult_le_compat_r with (r := UR) in Tr; lra. }
  assert (B : Rabs w <= big64).
  { apply Rmult_le_reg_r with UR; lra. }
  destruct (N B) as [F Z]. split; [exact F|]. split; [exact V|].
  assert (Tr : Rabs (fval z - v) <= Rabs (fval z - w) + Rabs (w - v)).
  { replace (fval z - v) with ((fval z - w) + (w - v)) by ring. apply Rabs_triang. }
  rewrite 2!plus_IZR.
  assert (D := Zdiv_R (mag lo hi + er) u53 eq_refl). rewrite plus_IZR in D.
  assert (UW : u64 * (Rabs w * UR) <= (IZR (mag lo hi) + IZR er) / IZR u53).
  { rewrite u53_val. unfold Rdiv. rewrite Rmult_comm. apply Rmult_le_compat_r; [|exact W].
    left. apply Rinv_0_lt_compat. apply (IZR_lt 0). reflexivity. }
  assert (e1 := eta_val).
  apply Rmult_le_compat_r with (r := UR) in Tr; [|lra].
  apply Rmult_le_compat_r with (r := UR) in Z; [|lra].
  change (IZR 2) with 2. lra.
Qed.

Lemma rel_add a b x y v w : rel a x v -> rel b y w -> rel (add a b) (add x y) (add v w).
Proof.
  intros A B. simpl. destruct a as [|l1 h1 e1]; [exact I|]. destruct b as [|l2 h2 e2]; [exact I|].
  destruct A as (Fx & Vx & Ex). destruct B as (Fy & Vy & Ey). simpl. rewrite ?upU_eq, ?byU_eq.
  apply mk_ok with (w := fval x + fval y).
  - intros H. now apply sf_add_near.
  - rewrite 2!plus_IZR. lra.
  - rewrite plus_IZR. replace (fval x + fval y - (v + w)) with ((fval x - v) + (fval y - w)) by ring.
    assert (T := Rabs_triang (fval x - v) (fval y - w)). apply Rmult_le_compat_r with (r := UR) in T; [lra|].
    left; apply UR_pos.
Qed.

Lemma rel_sub a b x y v w : rel a x v -> rel b y w -> rel (sub a b) (sub x y) (sub v w).
Proof.
  intros A B. simpl. destruct a as [|l1 h1 e1]; [exact I|]. destruct b as [|l2 h2 e2]; [exact I|].
  destruct A as (Fx & Vx & Ex). destruct B as (Fy & Vy & Ey). simpl. rewrite ?upU_eq, ?byU_eq.
  apply mk_ok with (w := fval x - fval y).
  - intros H. now apply sf_sub_near.
  - rewrite 2!minus_IZR. lra.
  - rewrite plus_IZR. replace (fval x - fval y - (v - w)) with ((fval x - v) - (fval y - w)) by ring.
    assert (T := Rabs_triang (fval x - v) (- (fval y - w))). rewrite Rabs_Ropp in T.
    apply Rmult_le_compat_r with (r := UR) in T; [unfold Rminus at 1; lra|].
    left; apply UR_pos.
Qed.

Lemma prod_between a b c d x y : a <= x <= b -> c <= y <= d ->
  Rmin (Rmin (a * c) (a * d)) (Rmin (b * c) (b * d)) <= x * y <=
  Rmax (Rmax (a * c) (a * d)) (Rmax (b * c) (b * d)).
Proof.
  intros [A B] [C D].
  assert (L1 := Rmin_l (Rmin (a * c) (a * d)) (Rmin (b * c) (b * d))).
  assert (L2 := Rmin_r (Rmin (a * c) (a * d)) (Rmin (b * c) (b * d))).
  assert (L3 := Rmin_l (a * c) (a * d)). assert (L4 := Rmin_r (a * c) (a * d)).
  assert (L5 := Rmin_l (b * c) (b * d)). assert (L6 := Rmin_r (b * c) (b * d)).
  assert (H1 := Rmax_l (Rmax (a * c) (a * d)) (Rmax (b * c) (b * d))).
  assert (H2 := Rmax_r (Rmax (a * c) (a * d)) (Rmax (b * c) (b * d))).
  assert (H3 := Rmax_l (a * c) (a * d)). assert (H4 := Rmax_r (a * c) (a * d)).
  assert (H5 := Rmax_l (b * c) (b * d)). assert (H6 := Rmax_r (b * c) (b * d)).
  set (mn := Rmin (Rmin (a * c) (a * d)) _) in *. set (mx := Rmax (Rmax (a * c) (a * d)) _) in *.
  clearbody mn mx.
  assert (X : a * y <= x * y <= b * y \/ b * y <= x * y <= a * y).
  { destruct (Rle_dec 0 y); [left|right]; split; nra. }
  assert (Ya : a * c <= a * y <= a * d \/ a * d <= a * y <= a * c).
  { destruct (Rle_dec 0 a); [left|right]; split; nra. }
  assert (Yb : b * c <= b * y <= b * d \/ b * d <= b * y <= b * c).
  { destruct (Rle_dec 0 b); [left|right]; split; nra. }
  lra.
Qed.

Lemma min4_R a b c d : IZR (min4 a b c d) = Rmin (Rmin (IZR a) (IZR b)) (Rmin (IZR c) (IZR d)).
Proof.
  assert (M : forall x y, IZR (Z.min x y) = Rmin (IZR x) (IZR y)).
  { intros x y. destruct (Z.le_ge_cases x y) as [H|H].
    - rewrite Z.min_l by exact H. apply IZR_le in H. now rewrite Rmin_left.
    - rewrite Z.min_r by exact H. apply IZR_le in H. now rewrite Rmin_right. }
  unfold min4. now rewrite !M.
Qed.
Lemma max4_R a b c d : IZR (max4 a b c d) = Rmax (Rmax (IZR a) (IZR b)) (Rmax (IZR c) (IZR d)).
Proof.
  assert (M : forall x y, IZR (Z.max x y) = Rmax (IZR x) (IZR y)).
  { intros x y. destruct (Z.le_ge_cases x y) as [H|H].
    - rewrite Z.max_r by exact H. apply IZR_le in H. now rewrite Rmax_right.
    - rewrite Z.max_l by exact H. apply IZR_le in H. now rewrite Rmax_left. }
  unfold max4. now rewrite !M.
Qed.

Lemma rel_mul a b x y v w : rel a x v -> rel b y w -> rel (mul a b) (mul x y) (mul v w).
Proof.
  intros A B. simpl. destruct a as [|l1 h1 e1]; [exact I|]. destruct b as [|l2 h2 e2]; [exact I|].
  destruct A as (Fx & Vx & Ex). destruct B as (Fy & Vy & Ey). simpl. rewrite ?upU_eq, ?byU_eq.
  assert (U := UR_pos).
  apply mk_ok with (w := fval x * fval y).
  - intros H. now apply sf_mul_near.
  - assert (P := prod_between _ _ _ _ _ _ Vx Vy).
    rewrite <- !mult_IZR, <- min4_R, <- max4_R in P.
    set (mn := min4 _ _ _ _) in *. set (mx := max4 _ _ _ _) in *. clearbody mn mx.
    assert (D1 := Zdiv_R mn UZ UZ_pos). assert (D2 := Zdiv_R mx UZ UZ_pos). rewrite <- UR_UZ in *.
    rewrite plus_IZR. change (IZR 1) with 1.
    assert (Q : v * w * UR = (v * UR * (w * UR)) / UR) by (field; lra).
    rewrite Q.
    assert (IZR mn / UR <= v * UR * (w * UR) / UR <= IZR mx / UR).
    { split; apply Rmult_le_compat_r; try lra; left; now apply Rinv_0_lt_compat. }
    lra.
  - rewrite plus_IZR. change (IZR 1) with 1.
    set (T := (mag l1 h1 * e2 + mag l2 h2 * e1 + e1 * e2)%Z).
    assert (D := Zdiv_R T UZ UZ_pos). rewrite <- UR_UZ in D.
    apply Rle_trans with (IZR T / UR); [|lra]. unfold T. rewrite !plus_IZR, !mult_IZR.
    assert (Mv := mag_ok _ _ _ Vx). assert (Mw := mag_ok _ _ _ Vy).
    rewrite Rabs_mult, (Rabs_pos_eq UR) in Mv, Mw by lra.
    apply Rdiv_le_l; [exact U|].
    assert (Tr : Rabs (fval x * fval y - v * w) <=
      Rabs v * Rabs (fval y - w) + Rabs w * Rabs (fval x - v) + Rabs (fval x - v) * Rabs (fval y - w)).
    { rewrite <- !Rabs_mult.
      replace (fval x * fval y - v * w) with (v * (fval y - w) + w * (fval x - v) + (fval x - v) * (fval y - w)) by ring.
      eapply Rle_trans; [apply Rabs_triang|]. apply Rplus_le_compat_r. apply Rabs_triang. }
    set (dx := Rabs (fval x - v)) in *. set (dy := Rabs (fval y - w)) in *.
    assert (0 <= dx) by apply Rabs_pos. assert (0 <= dy) by apply Rabs_pos.
    assert (0 <= Rabs v) by apply Rabs_pos. assert (0 <= Rabs w) by apply Rabs_pos.
    set (av := Rabs v) in *. set (aw := Rabs w) in *. clearbody dx dy av aw.
    apply Rle_trans with ((av * UR) * (dy * UR) + (aw * UR) * (dx * UR) + (dx * UR) * (dy * UR)).
    { assert (S2 : 0 <= UR * UR) by nra.
      apply Rmult_le_compat_r with (r := UR * UR) in Tr; [|exact S2]. lra. }
    assert (Pv : 0 <= av * UR) by nra. assert (Pw : 0 <= aw * UR) by nra.
    assert (Px : 0 <= dx * UR) by nra. assert (Py : 0 <= dy * UR) by nra.
    set (av' := av * UR) in *. set (aw' := aw * UR) in *. set (dx' := dx * UR) in *. set (dy' := dy * UR) in *.
    clearbody av' aw' dx' dy'.
    assert (av' * dy' <= IZR (mag l1 h1) * IZR e2) by (apply Rmult_le_compat; assumption).
    assert (aw' * dx' <= IZR (mag l2 h2) * IZR e1) by (apply Rmult_le_compat; assumption).
    assert (dx' * dy' <= IZR e1 * IZR e2) by (apply Rmult_le_compat; assumption).
    lra.
Qed.

Lemma rel_div a b x y v w : rel a x v -> rel b y w -> e_div a b <> Top ->
  rel (e_div a b) (sf_div x y) (v / w) /\ finite64 y /\ fval y <> 0 /\ w <> 0.
Proof.
  intros A B. destruct a as [|l1 h1 e1]; [simpl; congruence|]. destruct b as [|l2 h2 e2]; [simpl; congruence|].
  destruct A as (Fx & Vx & Ex). destruct B as (Fy & Vy & Ey). simpl. rewrite ?upU_eq, ?byU_eq.
  destruct (Z.ltb_spec 0 (l2 - e2)) as [L|]; [|simpl; congruence].
  destruct (Z.ltb_spec 0 l2) as [L2|]; [|simpl; congruence]. simpl. intros _.
  assert (U := UR_pos). set (D := (l2 - e2)%Z) in *.
  assert (Wy : 0 < w * UR) by (apply IZR_lt in L2; lra).
  assert (W0 : 0 < w) by nra.
  assert (DR : IZR D = IZR l2 - IZR e2) by (unfold D; now rewrite minus_IZR).
  assert (Ya : IZR D <= fval y * UR).
  { rewrite DR. assert (Q : Rabs ((fval y - w) * UR) <= IZR e2) by (rewrite Rabs_mult, (Rabs_pos_eq UR); lra).
    apply Rabs_def2b in Q || idtac. assert (Q2 := Rle_abs (- ((fval y - w) * UR))). rewrite Rabs_Ropp in Q2. lra. }
  assert (Dp : 0 < IZR D) by now apply (IZR_lt 0).
  assert (Y0 : 0 < fval y) by nra.
  assert (L2p : 0 < IZR l2) by now apply (IZR_lt 0).
  assert (H2p : 0 < IZR h2) by lra.
  assert (H2z : (0 < h2)%Z) by now apply lt_IZR.
  split; [|repeat split; try assumption; lra].
  apply mk_ok with (w := fval x / fval y).
  - intros H. apply sf_div_near; try assumption. lra.
  - set (V := v * UR) in *. set (W := w * UR) in *.
    assert (Q : v / w * UR = V * UR / W) by (unfold V, W; field; split; lra).
    rewrite Q. clearbody V W. rewrite plus_IZR. change (IZR 1) with 1. split.
    + destruct (Z.leb_spec 0 l1) as [P|P].
      * assert (D1 := Zdiv_R (l1 * UZ) h2 H2z). rewrite mult_IZR, <- UR_UZ in D1.
        apply Rle_trans with (IZR l1 * UR / IZR h2); [lra|]. apply IZR_le in P.
        apply div_cross; [lra|lra|]. assert (Wh : W <= IZR h2) by lra. assert (0 <= IZR l1) by exact P.
        assert (IZR l1 * W <= V * IZR h2) by nra. nra.
      * assert (D1 := Zdiv_R (l1 * UZ) l2 L2). rewrite mult_IZR, <- UR_UZ in D1.
        apply Rle_trans with (IZR l1 * UR / IZR l2); [lra|]. apply IZR_lt in P.
        apply div_cross; [lra|lra|].
        assert (IZR l1 * W <= V * IZR l2) by nra. nra.
    + destruct (Z.leb_spec 0 h1) as [P|P].
      * assert (D1 := Zdiv_R (h1 * UZ) l2 L2). rewrite mult_IZR, <- UR_UZ in D1.
        apply Rle_trans with (IZR h1 * UR / IZR l2); [|lra]. apply IZR_le in P.
        apply div_cross; [lra|lra|].
        assert (V * IZR l2 <= IZR h1 * W) by nra. nra.
      * assert (D1 := Zdiv_R (h1 * UZ) h2 H2z). rewrite mult_IZR, <- UR_UZ in D1.
        apply Rle_trans with (IZR h1 * UR / IZR h2); [|lra]. apply IZR_lt in P.
        apply div_cross; [lra|lra|].
        assert (V * IZR h2 <= IZR h1 * W) by nra. nra.
  - rewrite !plus_IZR. change (IZR 1) with 1.
    assert (D1 := Zdiv_R (e1 * UZ) D L). rewrite mult_IZR, <- UR_UZ in D1.
    assert (L3 : (0 < D * l2)%Z) by lia.
    assert (D2 := Zdiv_R (mag l1 h1 * e2 * UZ) (D * l2) L3). rewrite !mult_IZR, <- UR_UZ in D2.
    apply Rle_trans with (IZR e1 * UR / IZR D + IZR (mag l1 h1) * IZR e2 * UR / (IZR D * IZR l2)); [|lra].
    assert (Mv := mag_ok _ _ _ Vx). rewrite Rabs_mult, (Rabs_pos_eq UR) in Mv by lra.
    replace (fval x / fval y - v / w) with ((fval x - v) / fval y + - (v * (fval y - w) / (fval y * w))) by (field; split; lra).
    apply Rle_trans with ((Rabs (fval x - v) / fval y + Rabs v * Rabs (fval y - w) / (fval y * w)) * UR).
    { apply Rmult_le_compat_r; [lra|]. eapply Rle_trans; [apply Rabs_triang|]. rewrite Rabs_Ropp.
      unfold Rdiv. rewrite !Rabs_mult, !Rabs_inv, (Rabs_pos_eq (fval y)), (Rabs_pos_eq (fval y * w)) by nra. lra. }
    set (dx := Rabs (fval x - v)) in *. set (dy := Rabs (fval y - w)) in *.
    assert (0 <= dx) by apply Rabs_pos. assert (0 <= dy) by apply Rabs_pos. assert (0 <= Rabs v) by apply Rabs_pos.
    set (av := Rabs v) in *. clearbody dx dy av.
    rewrite Rmult_plus_distr_r. apply Rplus_le_compat.
    + replace (dx / fval y * UR) with ((dx * UR) * UR / (fval y * UR)) by (field; split; lra).
      apply div_cross; [nra|lra|].
      set (a := dx * UR) in *. set (b := fval y * UR) in *. assert (0 <= a) by (unfold a; nra). clearbody a b.
      assert (a * IZR D <= IZR e1 * b) by (apply Rmult_le_compat; lra). nra.
    + replace (av * dy / (fval y * w) * UR) with ((av * UR) * (dy * UR) * UR / ((fval y * UR) * (w * UR))) by (field; repeat split; lra).
      set (a := av * UR) in *. set (b := fval y * UR) in *. set (c := dy * UR) in *. set (W := w * UR) in *.
      assert (0 <= a) by (unfold a; nra). assert (0 <= c) by (unfold c; nra). assert (0 < b) by lra.
      clearbody a b c W.
      apply div_cross; [nra|nra|].
      assert (a * c <= IZR (mag l1 h1) * IZR e2) by (apply Rmult_le_compat; lra).
      assert (IZR D * IZR l2 <= b * W) by (apply Rmult_le_compat; lra).
      assert (a * c * (IZR D * IZR l2) <= IZR (mag l1 h1) * IZR e2 * (b * W)) by (apply Rmult_le_compat; nra).
      nra.
Qed.

Lemma Zsqrt_R n : (0 <= n)%Z -> IZR (Z.sqrt n) <= sqrt (IZR n) <= IZR (Z.sqrt n) + 1.
Proof.
  intros P. assert (S := Z.sqrt_spec n P). assert (S0 := Z.sqrt_nonneg n).
  set (q := Z.sqrt n) in *. clearbody q. destruct S as [A B].
  apply IZR_le in A. apply IZR_lt in B. rewrite mult_IZR in A, B. rewrite succ_IZR in B. apply IZR_le in S0.
  split.
  - rewrite <- (sqrt_square (IZR q)) by lra. now apply sqrt_le_1_alt.
  - rewrite <- (sqrt_square (IZR q + 1)) by lra. apply sqrt_le_1_alt. lra.
Qed.

Lemma sqrt_units v : 0 <= v -> sqrt v * UR = sqrt (v * UR * UR).
Proof.
  intros P. assert (U := UR_pos). rewrite Rmult_assoc, sqrt_mult by nra. now rewrite sqrt_square by lra.
Qed.

Lemma sqrt_between lo hi v : (0 <= lo)%Z -> IZR lo <= v * UR <= IZR hi ->
  IZR (Z.sqrt (lo * UZ)) <= sqrt v * UR <= IZR (Z.sqrt (hi * UZ) + 1).
Proof.
  intros P V. assert (U := UR_pos). apply IZR_le in P as PR.
  assert (0 <= v) by nra. rewrite sqrt_units by assumption.
  assert (Pu := UZ_pos). assert (hz : (0 <= hi)%Z) by (apply le_IZR; lra).
  assert (A := Zsqrt_R (lo * UZ) ltac:(lia)). assert (B := Zsqrt_R (hi * UZ) ltac:(lia)).
  rewrite plus_IZR. change (IZR 1) with 1. rewrite mult_IZR, <- UR_UZ in A, B.
  split; [eapply Rle_trans; [apply A|]|eapply Rle_trans; [|apply B]]; apply sqrt_le_1_alt; nra.
Qed.

Lemma rel_sqrt a x v : rel a x v -> rel (fsqrt a) (fsqrt x) (fsqrt v).
Proof.
  intros A. simpl. destruct a as [|l h e]; [exact I|]. destruct A as (Fx & V & E). simpl. rewrite ?upU_eq, ?byU_eq.
  assert (U := UR_pos).
  destruct (Z.leb_spec 0 l) as [L|L]; simpl.
  - destruct (Z.eqb_spec e 0) as [E0|E0].
    + subst e. assert (X : fval x = v).
      { assert (Rabs (fval x - v) = 0). { assert (P := Rabs_pos (fval x - v)). simpl in E. nra. }
        destruct (Req_dec (fval x - v) 0) as [Z|Z]; [lra|]. elim (Rabs_no_R0 _ Z). exact H. }
      apply IZR_le in L as LR. assert (Vp : 0 <= v) by nra.
      apply mk_ok with (w := sqrt (fval x)).
      * intros _. apply sf_sqrt_near; [exact Fx|lra].
      * now apply sqrt_between.
      * rewrite X. unfold Rminus. rewrite Rplus_opp_r, Rabs_R0. simpl. lra.
    + destruct (Z.ltb_spec e l) as [EL|]; [|exact I].
      destruct (Z.leb_spec 0 e) as [EP|]; [|exact I]. simpl.
      destruct (Z.ltb_spec 0 (Z.sqrt (l * UZ))) as [SP|]; [|exact I].
      apply IZR_le in L as LR. apply IZR_lt in EL. apply IZR_le in EP.
      assert (Vp : 0 < v) by nra.
      assert (Xp : 0 <= fval x).
      { assert (Q2 := Rle_abs (- (fval x - v))). rewrite Rabs_Ropp in Q2.
        apply Rmult_le_compat_r with (r := UR) in Q2; [|lra]. nra. }
      apply mk_ok with (w := sqrt (fval x)).
      * intros _. now apply sf_sqrt_near.
      * now apply sqrt_between.
      * assert (SB := proj1 (sqrt_between l h v L V)).
        set (q := Z.sqrt (l * UZ)) in *. clearbody q.
        assert (D := Zdiv_R (e * UZ) q SP). rewrite mult_IZR, <- UR_UZ in D. apply IZR_lt in SP.
        rewrite plus_IZR. change (IZR 1) with 1.
        apply Rle_trans with (IZR e * UR / IZR q); [|lra].
        apply Rdiv_le_l; [exact SP|].
        assert (Sv : 0 < sqrt v) by now apply sqrt_lt_R0.
        assert (Sx : 0 <= sqrt (fval x)) by apply sqrt_pos.
        assert (Df : Rabs (sqrt (fval x) - sqrt v) * sqrt v <= Rabs (fval x - v)).
        { replace (fval x - v) with ((sqrt (fval x) - sqrt v) * (sqrt (fval x) + sqrt v)).
          - rewrite Rabs_mult. apply Rmult_le_compat_l; [apply Rabs_pos|]. rewrite Rabs_pos_eq; lra.
          - assert (S1 := sqrt_sqrt _ Xp). assert (S2 := sqrt_sqrt v (Rlt_le _ _ Vp)). nra. }
        set (d := Rabs (sqrt (fval x) - sqrt v)) in *. assert (0 <= d) by apply Rabs_pos. clearbody d.
        apply Rle_trans with (d * UR * (sqrt v * UR)).
        { apply Rmult_le_compat_l; [nra|exact SB]. }
        apply Rle_trans with (Rabs (fval x - v) * UR * UR); [|nra].
        replace (d * UR * (sqrt v * UR)) with (d * sqrt v * UR * UR) by ring.
        repeat apply Rmult_le_compat_r; try lra.
  - destruct (Z.ltb_spec e l) as [EL|]; [|exact I]. destruct (Z.leb_spec 0 e) as [EP|]; [|exact I]. lia.
Qed.

Lemma rel_opp a x v : rel a x v -> rel (opp a) (opp x) (opp v).
Proof.
  intros A. simpl. destruct a as [|l h e]; [exact I|]. destruct A as (Fx & V & E). simpl. rewrite ?upU_eq, ?byU_eq.
  destruct (SFopp_exact x Fx) as [F1 E1]. split; [exact F1|]. rewrite E1, !opp_IZR. split; [lra|].
  replace (- fval x - - v) with (- (fval x - v)) by ring. now rewrite Rabs_Ropp.
Qed.

Lemma rel_lit m e : rel (lit m e) (lit m e) (lit m e).
Proof.
  simpl. unfold e_lit. rewrite ?upU_eq, ?byU_eq. assert (N := sf_lit_near m e). assert (U := UR_pos).
  destruct (Z.leb_spec 0 e) as [L|L]; apply mk_ok with (w := Rlit m e); try exact N.
  - unfold Rlit. destruct (Z.leb_spec 0 e); [|lia]. rewrite !mult_IZR, <- UR_UZ. lra.
  - unfold Rminus. rewrite Rplus_opp_r, Rabs_R0. simpl. lra.
  - unfold Rlit. destruct (Z.leb_spec 0 e); [lia|].
    assert (P : (0 < 10 ^ (- e))%Z) by (apply Z.pow_pos_nonneg; lia).
    assert (D := Zdiv_R (m * UZ) (10 ^ (- e)) P). rewrite mult_IZR, <- UR_UZ in D.
    rewrite plus_IZR. change (IZR 1) with 1. apply IZR_lt in P.
    replace (IZR m / IZR (10 ^ (- e)) * UR) with (IZR m * UR / IZR (10 ^ (- e))) by (field; lra). exact D.
  - unfold Rminus. rewrite Rplus_opp_r, Rabs_R0. simpl. lra.
Qed.

(** ** results that may be exceptions *)
Definition rrel {A B C : Type} (P : A -> B -> C -> Prop) (ra : res A) (rx : res B) (rv : res C) : Prop :=
  match ra with
  | Err _ => True
  | Ok a => exists x v, rx = Ok x /\ rv = Ok v /\ P a x v
  end.

Lemma rrel_ok {A B C} (P : A -> B -> C -> Prop) a x v : P a x v -> rrel P (Ok a) (Ok x) (Ok v).
Proof. intros H. exists x, v. repeat split. exact H. Qed.

Lemma rrel_bind {A B C A' B' C'} (P : A -> B -> C -> Prop) (Q : A' -> B' -> C' -> Prop) ra rx rv f g h :
  rrel P ra rx rv -> (forall a x v, P a x v -> rrel Q (f a) (g x) (h v)) ->
  rrel Q (bind ra f) (bind rx g) (bind rv h).
Proof.
  intros H K. destruct ra as [a|]; [|exact I]. destruct H as (x & v & -> & -> & H). exact (K a x v H).
Qed.

(** the divisions of f64 and R: raising or not *)
Definition dv_pair (dx : f64 -> f64 -> res f64) (dr : R -> R -> res R) : Prop :=
  (dx = sdiv \/ dx = adiv) /\ (dr = sdiv \/ dr = adiv).

Lemma rel_dv dx dr a b x y v w : dv_pair dx dr -> rel a x v -> rel b y w ->
  rrel rel (e_dv a b) (dx x y) (dr v w).
Proof.
  intros [Hx Hr] A B. unfold e_dv. assert (K := rel_div a b x y v w A B).
  destruct (e_div a b) as [|l h e]; [exact I|]. destruct K as (K & Fy & Y0 & W0); [discriminate|].
  exists (sf_div x y), (v / w). split; [|split; [|exact K]].
  - destruct Hx as [-> | ->]; [|reflexivity]. unfold sdiv. simpl.
    change (zero : f64) with (S754_zero false). now rewrite sf_eqb_zero.
  - destruct Hr as [-> | ->]; [|reflexivity]. unfold sdiv. simpl. unfold Reqb, zero. simpl. unfold Rlit. simpl.
    destruct (Req_EM_T w (0 * 1)) as [E|E]; [lra|reflexivity].
Qed.

Lemma rel_pow n a x v : rel a x v -> rel (fpow a n) (fpow x n) (fpow v n).
Proof.
  intros H. induction n as [|n IH]; [apply rel_lit|]. destruct n as [|n]; [exact H|].
  change (fpow a (S (S n))) with (mul (fpow a (S n)) a). change (fpow x (S (S n))) with (mul (fpow x (S n)) x).
  change (fpow v (S (S n))) with (mul (fpow v (S n)) v). now apply rel_mul.
Qed.

(** inputs *)
Lemma rel_in x lo hi : finite64 x -> IZR lo <= fval x <= IZR hi -> rel (Ev (lo * UZ) (hi * UZ) 0) x (fval x).
Proof.
  intros F V. assert (U := UR_pos). split; [exact F|]. rewrite !mult_IZR, <- UR_UZ. split; [nra|].
  unfold Rminus. rewrite Rplus_opp_r, Rabs_R0. simpl. lra.
Qed.

Ltac rel1 :=
  lazymatch goal with
  | |- rel (add _ _) _ _ => apply rel_add
  | |- rel (sub _ _) _ _ => apply rel_sub
  | |- rel (mul _ _) _ _ => apply rel_mul
  | |- rel (fsqrt _) _ _ => apply rel_sqrt
  | |- rel (lit _ _) _ _ => apply rel_lit
  | |- rel (fpow _ _) _ _ => apply rel_pow
  | |- rel _ _ _ => assumption
  end.
