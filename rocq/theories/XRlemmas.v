(** * Simplification of operations on finite extended reals *)
From Coq Require Import ZArith Bool Reals Lra Lia List.
From Verif Require Import Num XR Res.
Local Open Scope R_scope.

Lemma Rlit_0 m : Rlit m 0 = IZR m.
Proof. unfold Rlit. simpl. lra. Qed.
Lemma Rlit_half : Rlit 5 (-1) = / 2.
Proof. unfold Rlit. simpl. lra. Qed.

Lemma Rltb_spec x y : reflect (x < y) (Rltb x y).
Proof. unfold Rltb. destruct (Rlt_dec x y); constructor; auto. Qed.
Lemma Rleb_spec x y : reflect (x <= y) (Rleb x y).
Proof. unfold Rleb. destruct (Rle_dec x y); constructor; auto. Qed.
Lemma Reqb_spec x y : reflect (x = y) (Reqb x y).
Proof. unfold Reqb. destruct (Req_EM_T x y); constructor; auto. Qed.

Lemma Rltb_true x y : x < y -> Rltb x y = true.
Proof. destruct (Rltb_spec x y); auto; lra. Qed.
Lemma Rltb_false x y : y <= x -> Rltb x y = false.
Proof. destruct (Rltb_spec x y); auto; lra. Qed.
Lemma Rleb_true x y : x <= y -> Rleb x y = true.
Proof. destruct (Rleb_spec x y); auto; lra. Qed.
Lemma Rleb_false x y : y < x -> Rleb x y = false.
Proof. destruct (Rleb_spec x y); auto; lra. Qed.
Lemma Reqb_true x y : x = y -> Reqb x y = true.
Proof. destruct (Reqb_spec x y); auto; lra. Qed.
Lemma Reqb_false x y : x <> y -> Reqb x y = false.
Proof. destruct (Reqb_spec x y); auto; lra. Qed.

Lemma xr_div_fin a b : b <> 0 -> xr_div (Fin a) (Fin b) = Fin (a / b).
Proof. intros H. simpl. destruct (Req_EM_T b 0); congruence. Qed.

Lemma sdiv_fin a b : b <> 0 -> sdiv (Fin a) (Fin b) = Ok (Fin (a / b)).
Proof.
  intros H. unfold sdiv, zero. cbn [eqb xrNum xr_eqb lit]. rewrite Rlit_0.
  rewrite Reqb_false by exact H. cbn [div xrNum]. rewrite xr_div_fin by exact H. reflexivity.
Qed.

Lemma sdiv_zero a : sdiv (Fin a) (Fin 0) = Err ZeroDivisionError.
Proof.
  unfold sdiv, zero. cbn [eqb xrNum xr_eqb lit]. rewrite Rlit_0, Reqb_true; reflexivity.
Qed.

Lemma eps_xr : (eps : xr) = Fin (/ 4503599627370496).
Proof.
  unfold eps. cbn [div lit xrNum]. rewrite !Rlit_0. rewrite xr_div_fin by lra.
  f_equal. lra.
Qed.

(** unfold operations of the [xr] instance, leaving real operations *)
Ltac xsimp :=
  cbn [add sub mul opp fabs ltb leb eqb isnan isfinite nan ninf lit xrNum
       xr_add xr_sub xr_mul xr_opp xr_abs xr_ltb xr_leb xr_eqb xr_isnan xr_isfinite
       bind orb andb negb];
  rewrite ?Rlit_0, ?Rlit_half.

Ltac xsimp_in H :=
  cbn [add sub mul opp fabs ltb leb eqb isnan isfinite nan ninf lit xrNum
       xr_add xr_sub xr_mul xr_opp xr_abs xr_ltb xr_leb xr_eqb xr_isnan xr_isfinite
       bind orb andb negb] in H;
  rewrite ?Rlit_0, ?Rlit_half in H.

(** case analysis on a real comparison occurring in the goal *)
Ltac rcase :=
  match goal with
  | |- context [Rltb ?x ?y] => destruct (Rltb_spec x y)
  | |- context [Rleb ?x ?y] => destruct (Rleb_spec x y)
  | |- context [Reqb ?x ?y] => destruct (Reqb_spec x y)
  end.

(** ** Loops *)
Lemma loop_mono {S A} (body : S -> res (S + A)) n s r :
  loop n body s = r -> r <> Err OutOfFuel ->
  forall m, (n <= m)%nat -> loop m body s = r.
Proof.
  revert s r. induction n as [|n IH]; intros s r H Hr m Hm; simpl in H.
  - congruence.
  - destruct m as [|m]; [lia|]. simpl.
    destruct (body s) as [[s'|a]|e]; simpl in *; auto.
    apply IH; auto. lia.
Qed.
