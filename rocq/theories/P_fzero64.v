(** * Root finding in binary64: the statements *)
From Coq Require Import ZArith Reals Bool SpecFloat Lia Lra Psatz.
From Flocq Require Import Core BinarySingleNaN Relative.
From Verif Require Import Num SF Res M_fzero S_float S_fzero S_fzero64 XRlemmas P_float P_fl P_fzero P_brent64 P_gtb64.
Open Scope R_scope.

#[local] Existing Instance P_float.prec_pos.
#[local] Existing Instance P_float.prec_max.

Lemma inv_lim9 : / lim9 = powerRZ 2 (-900).
Proof. reflexivity. Qed.

Lemma u8 : 8 * u64 = powerRZ 2 (-50).
Proof.
  unfold u64. change (powerRZ 2 (-50)) with (/ 2 ^ 50). replace (2 ^ 50) with 1125899906842624; [lra|].
  rewrite (pow_IZR 2 50). reflexivity.
Qed.

Lemma found_final f A B t x : final f A B t x <-> found f A B t x.
Proof.
  unfold final, found, inside, between64, brent_tol, Reps, T_, opposite64, opposite. rewrite <- u8. split.
  - intros [I (fx & E & F & H)]. split; [exact I|]. exists fx. split; [exact E|]. split; [exact F|].
    destruct H as [H|(y & fy & Iy & Ey & Fy & O & L & D)]; [left; exact H|right]. exists y, fy.
    split; [exact Iy|]. split; [exact Ey|]. split; [exact Fy|]. split; [exact O|]. split; [exact L|]. rewrite Rabs_minus_sym. exact D.
  - intros [I (fx & E & F & H)]. split; [exact I|]. exists fx. split; [exact E|]. split; [exact F|].
    destruct H as [H|(y & fy & Iy & Ey & Fy & O & L & D)]; [left; exact H|right]. exists y, fy.
    split; [exact Iy|]. split; [exact Ey|]. split; [exact Fy|]. split; [exact O|]. split; [exact L|]. rewrite Rabs_minus_sym. exact D.
Qed.

Lemma defined_hf f A B : defined_on f A B -> forall x, finite64 x -> fval A <= fval x <= fval B -> exists y, f x = Ok y /\ finite64 y.
Proof. intros H x F I. apply H. split; assumption. Qed.

Lemma nat_above r : exists n, r <= INR n.
Proof.
  exists (Z.to_nat (Z.max 0 (up r))). destruct (archimed r) as [H _]. rewrite INR_IZR_INZ, Z2Nat.id by lia.
  apply Rle_trans with (IZR (up r)); [lra|]. apply IZR_le. lia.
Qed.

Lemma brent64 (f : f64 -> res f64) (a b t fa fb : f64) :
  finite64 a -> finite64 b -> finite64 t -> ordinary (fval a) -> ordinary (fval b) -> tolerance_ok (fval t) -> fval a <= fval b ->
  defined_on f a b -> f a = Ok fa -> f b = Ok fb -> fval fa * fval fb <= 0 ->
  exists x, (forall fuel, 5 * (fval b - fval a) / fval t + 1 <= INR fuel -> brent f fuel a b t = Ok x) /\ found f a b t x.
Proof.
  intros Fa Fb Ft La Lb Lt Hab Hf Ea Eb Hs.
  assert (K : forall fuel, 5 * (fval b - fval a) / fval t + 1 <= INR fuel -> exists x, brent f fuel a b t = Ok x /\ found f a b t x).
  { intros fuel Hn. destruct (brent_ok f a b t Fa Fb Ft La Lb Lt (defined_hf f a b Hf) fa fb fuel Ea Eb Hab Hs Hn) as (x & E & H).
    exists x. split; [exact E|]. apply found_final. exact H. }
  destruct (nat_above (5 * (fval b - fval a) / fval t + 1)) as [n Hn].
  destruct (K n ltac:(lra)) as (x & E & H). exists x. split; [|exact H].
  intros fuel Hf'. destruct (K fuel Hf') as (x' & E' & _).
  assert (x' = x); [|congruence].
  (* the two runs agree on the larger fuel *)
  assert (M : forall n m y, (n <= m)%nat -> brent f n a b t = Ok y -> brent f m a b t = Ok y).
  { intros p q y L. unfold brent. destruct (isnan a || isnan b || ltb b a)%bool; [intros H'; exact H'|].
    rewrite Ea, Eb. cbn [bind]. destruct (ltb (lit 0 0) (mul fa fb)); [intros H'; exact H'|].
    intros H'. apply loop_mono with (n := p); [exact H'|discriminate|exact L]. }
  pose proof (M n (max n fuel) x ltac:(lia) E) as A1. pose proof (M fuel (max n fuel) x' ltac:(lia) E') as A2. congruence.
Qed.

Lemma pos_mul x y : finite64 x -> finite64 y -> powerRZ 2 (-1000) <= fval x * fval y -> SFltb (lit 0 0 : f64) (sf_mul x y) = true.
Proof.
  intros Fx Fy H. destruct fl_zero as [Fz E0]. pose proof eta_least as El. pose proof least_pos as Lp. pose proof eta64_pos as Ep.
  fold least64 in H.
  destruct (Rlt_or_le (Rabs (rnd (fval x * fval y))) (bpow radix2 1024)) as [L|L].
  - destruct (mul_val x y Fx Fy L) as [Fm Em]. rewrite ltb_val, E0, Em by assumption. apply Rlt_bool_true.
    pose proof (rnd_err (fval x * fval y)) as HR. rewrite (Rabs_pos_eq (fval x * fval y)) in HR by lra. apply Rabs_le_inv in HR.
    unfold u64 in HR. lra.
  - destruct (mul_overflow x y Fx Fy L) as [[_ ->]|[N _]]; [apply ltb_inf_finite; exact Fz|lra].
Qed.

Lemma brent64_nan (f : f64 -> res f64) (a b t fa fb : f64) fuel :
  finite64 fa -> finite64 fb -> f a = Ok fa -> f b = Ok fb -> powerRZ 2 (-1000) <= fval fa * fval fb -> brent f fuel a b t = Ok nan.
Proof.
  intros Fa Fb Ea Eb H. unfold brent. destruct (isnan a || isnan b || ltb b a)%bool; [reflexivity|].
  rewrite Ea, Eb. cbn [bind]. change (ltb (lit 0 0) (mul fa fb)) with (SFltb (lit 0 0 : f64) (sf_mul fa fb)).
  rewrite (pos_mul fa fb Fa Fb H). reflexivity.
Qed.

(** a found root of the computed function is near a root of the real function it approximates *)
Lemma found_root (f : f64 -> res f64) (g : R -> R) delta (a b t x : f64) : 0 < fval t -> 0 <= delta ->
  continuous_on g (fval a) (fval b) ->
  (forall z y, between64 a b z -> f z = Ok y -> Rabs (fval y - g (fval z)) <= delta) -> found f a b t x ->
  exists r, fval a <= r <= fval b /\ Rabs (g r) <= delta /\ Rabs (fval x - r) <= brent_tol (fval x) (fval t) * (1 + powerRZ 2 (-50)).
Proof.
  intros Tp Dp Cg Hg (Ix & fx & Ex & Fx & H).
  assert (P50 : 0 < powerRZ 2 (-50)) by (apply powerRZ_lt; lra).
  pose proof (brent_tol_pos (fval x) (fval t) Tp) as TP.
  assert (T0 : 0 <= brent_tol (fval x) (fval t) * (1 + powerRZ 2 (-50))) by nra.
  pose proof (Hg x fx Ix Ex) as Gx. apply Rabs_le_inv in Gx.
  assert (D0 : Rabs (fval x - fval x) = 0) by (rewrite Rminus_diag_eq, Rabs_R0 by reflexivity; reflexivity).
  destruct H as [Z|(y & fy & Iy & Ey & Fy & Op & _ & D)].
  - exists (fval x). split; [exact (proj2 Ix)|]. split; [apply Rabs_le; lra|lra].
  - pose proof (Hg y fy Iy Ey) as Gy. apply Rabs_le_inv in Gy.
    destruct (Rle_dec (Rabs (g (fval x))) delta) as [Q|Q]; [exists (fval x); split; [exact (proj2 Ix)|split; [exact Q|lra]]|].
    destruct (Rle_dec (Rabs (g (fval y))) delta) as [Q'|Q']; [exists (fval y); split; [exact (proj2 Iy)|split; [exact Q'|exact D]]|].
    destruct (near_root_continuous g (fval a) (fval b) (fval x) (brent_tol (fval x) (fval t) * (1 + powerRZ 2 (-50)))) as (r & Hr & Dr & Er).
    + exact (proj2 Ix).
    + exact T0.
    + exact Cg.
    + right. exists (fval y). split; [exact (proj2 Iy)|]. split; [exact D|].
      assert (Q1 : g (fval x) < - delta \/ delta < g (fval x)) by (destruct (Rle_dec 0 (g (fval x))); [rewrite Rabs_pos_eq in Q by lra|rewrite Rabs_left in Q by lra]; lra).
      assert (Q2 : g (fval y) < - delta \/ delta < g (fval y)) by (destruct (Rle_dec 0 (g (fval y))); [rewrite Rabs_pos_eq in Q' by lra|rewrite Rabs_left in Q' by lra]; lra).
      unfold opposite in *. destruct Op as [Op|Op]; lra.
    + exists r. split; [exact Hr|]. split; [rewrite Er, Rabs_R0; exact Dp|exact Dr].
Qed.

Lemma gtb64 (f : f64 -> res f64) (x A B : f64) : finite64 x -> finite64 A -> finite64 B -> ordinary (fval A) -> ordinary (fval B) ->
  fval A <= fval B ->
  apart (fval A) (Rmin (Rmax (fval x) (fval A)) (fval B)) -> apart (Rmin (Rmax (fval x) (fval A)) (fval B)) (fval B) ->
  defined_on f A B ->
  exists r, (forall fuel, (13 <= fuel)%nat -> guess_to_bounds f fuel x A B = Ok r) /\
    ((r = (A, A) /\ exists v, f A = Ok v /\ fval v = 0) \/
     (r = (B, B) /\ exists v, f B = Ok v /\ fval v = 0) \/
     (exists a b fa fb, r = (a, b) /\ between64 A B a /\ between64 A B b /\
        fval a <= Rmin (Rmax (fval x) (fval A)) (fval B) <= fval b /\
        f a = Ok fa /\ f b = Ok fb /\ opposite (fval fa) (fval fb)) \/
     (r = (nan, nan) /\ no_change f A B)).
Proof.
  intros Fx FA FB LA LB AB XA XB Hf. set (y := Rmin (Rmax (fval x) (fval A)) (fval B)) in *.
  assert (XA' : y = fval A \/ least64 <= y - fval A) by (destruct XA as [E|E]; [left; symmetry; exact E|right; exact E]).
  assert (Y : fval A <= y <= fval B) by (unfold y; split; [apply Rmin_glb; [apply Rmax_r|exact AB]|apply Rmin_r]).
  destruct (gtb_ok f A B x FA FB Fx AB LA LB XA' XB (defined_hf f A B Hf)) as (r & E & H).
  exists r. split; [exact E|]. destruct H as [H|[H|[H|H]]]; [left; exact H|right; left; exact H| |].
  - right. right. left. destruct H as (a & b & fa & fb & Er & Fa & Fb & Ha & Hb & Ea & Eb & Ffa & Ffb & Op). fold y in Ha, Hb.
    exists a, b, fa, fb. split; [exact Er|]. split; [split; [exact Fa|lra]|]. split; [split; [exact Fb|lra]|]. split; [lra|].
    split; [exact Ea|]. split; [exact Eb|exact Op].
  - right. right. right. exact H.
Qed.

Lemma brent_guess64 (f : f64 -> res f64) (x A B t : f64) : finite64 x -> finite64 A -> finite64 B -> finite64 t ->
  ordinary (fval A) -> ordinary (fval B) -> tolerance_ok (fval t) -> fval A <= fval B ->
  apart (fval A) (Rmin (Rmax (fval x) (fval A)) (fval B)) -> apart (Rmin (Rmax (fval x) (fval A)) (fval B)) (fval B) ->
  defined_on f A B -> forall fg fb, (13 <= fg)%nat -> 5 * (fval B - fval A) / fval t + 1 <= INR fb ->
  exists r, brent_guess f fg fb x A B t = Ok r /\ (found f A B t r \/ (r = nan /\ no_change f A B)).
Proof.
  intros Fx FA FB Ft LA LB Lt AB XA XB Hf fg fb Hg Hb.
  assert (XA' : Rmin (Rmax (fval x) (fval A)) (fval B) = fval A \/ least64 <= Rmin (Rmax (fval x) (fval A)) (fval B) - fval A)
    by (destruct XA as [E|E]; [left; symmetry; exact E|right; exact E]).
  destruct (brent_guess_ok f A B x FA FB Fx AB LA LB XA' XB (defined_hf f A B Hf) t Ft Lt fg fb Hg Hb) as (r & E & H).
  exists r. split; [exact E|]. destruct H as [H|H]; [left; apply found_final; exact H|right; exact H].
Qed.

(** ** a guess so close to the end that the distance cannot grow *)
Fixpoint steps {S X} (n : nat) (body : S -> res (S + X)) (s : S) : option S :=
  match n with
  | O => Some s
  | Datatypes.S n => match body s with Ok (inl s') => steps n body s' | _ => None end
  end.

Lemma steps_loop {S X} (body : S -> res (S + X)) n s s' : steps n body s = Some s' -> body s' = Ok (inl s') ->
  forall fuel, loop fuel body s = Err OutOfFuel.
Proof.
  intros H Hs.
  assert (L : forall fuel, loop fuel body s' = Err OutOfFuel).
  { induction fuel as [|k IH]; [reflexivity|]. cbn [loop]. rewrite Hs. exact IH. }
  revert s H. induction n as [|n IH]; intros s H fuel; cbn [steps] in H.
  - injection H as ->. apply L.
  - destruct fuel as [|k]; [reflexivity|]. cbn [loop]. destruct (body s) as [[s1|x]|e]; try discriminate H.
    cbn [bind]. apply IH. exact H.
Qed.

Definition sub_guess : f64 := S754_finite false 50 (-1074).
Definition sub_fun (x : f64) : res f64 := Ok (lit 1 0).
Definition sub_start : @gstate f64 :=
  mkG sub_guess sub_guess (S754_finite false 1 (-1074)) (S754_finite false 5764607523034235 (-58)) None (Some true).
Definition sub_end : @gstate f64 := Eval vm_compute in
  match steps 13 (gtb_body sub_fun sub_guess (lit 0 0) (lit 1 0)) sub_start with Some s => s | None => sub_start end.

Lemma gtb64_diverges : forall fuel, guess_to_bounds sub_fun fuel sub_guess (lit 0 0) (lit 1 0) = Err OutOfFuel.
Proof.
  intros fuel.
  transitivity (loop fuel (gtb_body sub_fun sub_guess (lit 0 0) (lit 1 0)) sub_start).
  - unfold guess_to_bounds, sub_fun at 1 2. cbn [bind].
    replace (eqb (lit 1 0 : f64) (lit 0 0)) with false by (vm_compute; reflexivity).
    replace (fmin (fmax sub_guess (lit 0 0)) (lit 1 0)) with sub_guess by (vm_compute; reflexivity).
    replace (sdiv (sub (lit 1 0) sub_guess) (lit 50 0)) with (Ok (S754_finite false 5764607523034235 (-58)) : res f64) by (vm_compute; reflexivity).
    replace (sdiv (sub sub_guess (lit 0 0)) (lit 50 0)) with (Ok (S754_finite false 1 (-1074)) : res f64) by (vm_compute; reflexivity).
    cbn [bind].
    match goal with |- bind ?X _ = _ => replace X with (Ok sub_start) by (vm_compute; reflexivity) end. reflexivity.
  - apply steps_loop with (n := 13%nat) (s' := sub_end); vm_compute; reflexivity.
Qed.

Lemma gtb64_refuted : exists (f : f64 -> res f64) (x A B : f64), finite64 x /\ finite64 A /\ finite64 B /\
  ordinary (fval A) /\ ordinary (fval B) /\ fval A < fval x < fval B /\ defined_on f A B /\
  forall fuel, guess_to_bounds f fuel x A B = Err OutOfFuel.
Proof.
  exists sub_fun, sub_guess, (lit 0 0), (lit 1 0). destruct fl_zero as [Fz E0]. destruct fl_one as [F1 E1].
  assert (Fs : finite64 sub_guess) by (split; [reflexivity|split; [lia|left; reflexivity]]).
  assert (Es : 0 < fval sub_guess < 1).
  { unfold sub_guess. cbn [fval]. change (powerRZ 2 (-1074)) with (/ 2 ^ 1074).
    assert (P : 50 < 2 ^ 1074) by (apply Rlt_le_trans with (2 ^ 6); [lra|apply Rle_pow; [lra|lia]]). split.
    - apply Rmult_lt_0_compat; [lra|apply Rinv_0_lt_compat; lra].
    - apply Rmult_lt_reg_r with (2 ^ 1074); [lra|]. rewrite Rmult_assoc, Rinv_l by lra. lra. }
  assert (L : 1 <= powerRZ 2 900) by exact (proj2 lim9_big).
  split; [exact Fs|]. split; [exact Fz|]. split; [exact F1|].
  split; [unfold ordinary; rewrite E0, Rabs_R0; lra|]. split; [unfold ordinary; rewrite E1, Rabs_R1; lra|].
  split; [rewrite E0, E1; exact Es|]. split; [intros z _; exists (lit 1 0); split; [reflexivity|exact F1]|].
  exact gtb64_diverges.
Qed.
