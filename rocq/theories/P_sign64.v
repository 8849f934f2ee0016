(** * Root searches in binary64 where the function is not a number, or has one sign *)
From Coq Require Import ZArith Bool Reals Lra Lia List SpecFloat.
From Flocq Require Import Core.Raux.
From Verif Require Import Num SF Res M_fzero S_float S_fzero S_fzero64 P_float P_fl P_gtb64 P_fzero64.
Open Scope R_scope.

(** the search for bounds only looks at signs *)
Definition sign_of (y : f64) : f64 := if eqb y (lit 0 0) then lit 0 0 else if ltb (lit 0 0) y then lit 1 0 else opp (lit 1 0).
Definition signed (f : f64 -> res f64) (z : f64) : res f64 := match f z with Ok y => Ok (sign_of y) | Err e => Err e end.

Lemma sign_eqb y : eqb (sign_of y) (lit 0 0 : f64) = eqb y (lit 0 0).
Proof. unfold sign_of. destruct (eqb y (lit 0 0)); [reflexivity|]. destruct (ltb (lit 0 0) y); reflexivity. Qed.
Lemma sign_ltb y : ltb (lit 0 0 : f64) (sign_of y) = ltb (lit 0 0) y.
Proof.
  unfold sign_of. destruct (eqb y (lit 0 0)) eqn:E.
  - destruct y as [s|s| |s m e]; [destruct s; reflexivity|destruct s; discriminate E|discriminate E|destruct s; discriminate E].
  - destruct (ltb (lit 0 0) y); reflexivity.
Qed.
Lemma sign_finite y : finite64 (sign_of y).
Proof.
  unfold sign_of. destruct fl_zero as [F0 _]. destruct fl_one as [F1 _].
  destruct (eqb y (lit 0 0)); [exact F0|]. destruct (ltb (lit 0 0) y); [exact F1|]. exact (proj1 (SFopp_exact _ F1)).
Qed.
Lemma sign_val y b : eqb y (lit 0 0 : f64) = false -> ltb (lit 0 0 : f64) y = b -> fval (sign_of y) = if b then 1 else -1.
Proof.
  intros H1 H2. unfold sign_of. rewrite H1, H2. destruct fl_one as [F1 V1]. destruct b; [exact V1|].
  assert (E := proj2 (SFopp_exact _ F1)). rewrite V1 in E. transitivity (- (1)); [exact E|lra].
Qed.

Lemma loop_ext {S A} (b b' : S -> res (S + A)) : (forall s, b s = b' s) -> forall fuel s, loop fuel b s = loop fuel b' s.
Proof. intros H. induction fuel as [|n IH]; intros s; [reflexivity|]. cbn [loop]. rewrite H. destruct (b' s) as [[s'|a]|]; cbn [bind]; auto. Qed.

Lemma left_sign f (x A B : f64) st : gtb_left (signed f) x A B st = gtb_left f x A B st.
Proof.
  destruct st as [a b dxm dxp fa fb]. unfold gtb_left. destruct (ltb A a); [|reflexivity].
  unfold signed. destruct (f (fmax (sub x (mul dxm (lit 1414213562373095 (-15)))) A)) as [y|]; cbn [bind]; [|reflexivity]. rewrite sign_ltb. reflexivity.
Qed.
Lemma right_sign f (x A B : f64) st : gtb_right (signed f) x A B st = gtb_right f x A B st.
Proof.
  destruct st as [a b dxm dxp fa fb]. unfold gtb_right. destruct (ltb b B); [|reflexivity].
  unfold signed. destruct (f (fmin (add x (mul dxp (lit 1414213562373095 (-15)))) B)) as [y|]; cbn [bind]; [|reflexivity]. rewrite sign_ltb. reflexivity.
Qed.
Lemma gtb_sign f fuel (x A B : f64) : guess_to_bounds (signed f) fuel x A B = guess_to_bounds f fuel x A B.
Proof.
  assert (L : forall y st, loop fuel (gtb_body (signed f) y A B) st = loop fuel (gtb_body f y A B) st).
  { intros y st. apply loop_ext. intros st'. unfold gtb_body. rewrite left_sign. destruct (gtb_left f y A B st') as [[s|r]|]; cbn [bind]; [|reflexivity..].
    apply right_sign. }
  unfold guess_to_bounds. unfold signed at 1. destruct (f A) as [fA|]; cbn [bind]; [|reflexivity]. rewrite sign_eqb. destruct (eqb fA (lit 0 0)); [reflexivity|].
  unfold signed at 1. destruct (f B) as [fB|]; cbn [bind]; [|reflexivity]. rewrite sign_eqb. destruct (eqb fB (lit 0 0)); [reflexivity|].
  set (y := fmin (fmax x A) B). destruct (sdiv (sub B y) (lit 50 0)) as [dxp|]; cbn [bind]; [|reflexivity].
  destruct (sdiv (sub y A) (lit 50 0)) as [dxm|]; cbn [bind]; [|reflexivity].
  set (a := if eqb dxm (lit 0 0) then A else y). set (b := if eqb dxp (lit 0 0) then B else y). clearbody a b y.
  destruct (ltb A a).
  - unfold signed at 1. destruct (f b) as [fb|]; cbn [bind]; [|reflexivity]. rewrite sign_ltb. apply L.
  - destruct (eqb b B).
    + unfold signed at 1. destruct (f a) as [fa|]; cbn [bind]; [|reflexivity]. unfold signed at 1. destruct (f b) as [fb|]; cbn [bind]; [|reflexivity].
      rewrite !sign_ltb. apply L.
    + unfold signed at 1. destruct (f a) as [fa|]; cbn [bind]; [|reflexivity]. rewrite sign_ltb. apply L.
Qed.

(** values of one sign, or never a number: nothing is found *)
Definition one_sign (b : bool) (y : f64) : Prop := eqb y (lit 0 0 : f64) = false /\ ltb (lit 0 0 : f64) y = b.

Lemma nan_one_sign : one_sign false (S754_nan : f64).
Proof. split; reflexivity. Qed.

Lemma gtb_constant (f : f64 -> res f64) b (x A B : f64) : finite64 x -> finite64 A -> finite64 B -> ordinary (fval A) -> ordinary (fval B) ->
  fval A <= fval B ->
  apart (fval A) (Rmin (Rmax (fval x) (fval A)) (fval B)) -> apart (Rmin (Rmax (fval x) (fval A)) (fval B)) (fval B) ->
  (forall z, between64 A B z -> exists y, f z = Ok y /\ one_sign b y) ->
  forall fuel, (13 <= fuel)%nat -> guess_to_bounds f fuel x A B = Ok (nan, nan).
Proof.
  intros Fx FA FB LA LB AB XA XB Hf fuel Hfuel.
  assert (V : forall z y, between64 A B z -> signed f z = Ok y -> fval y = if b then 1 else -1).
  { intros z y Hz E. destruct (Hf z Hz) as (w & Ew & H1 & H2). unfold signed in E. rewrite Ew in E.
    assert (E' : sign_of w = y) by congruence. rewrite <- E'. exact (sign_val w b H1 H2). }
  assert (Hdef : defined_on (signed f) A B).
  { intros z Hz. destruct (Hf z Hz) as (w & Ew & _). exists (sign_of w). split; [unfold signed; rewrite Ew; reflexivity|apply sign_finite]. }
  destruct (gtb64 (signed f) x A B Fx FA FB LA LB AB XA XB Hdef) as (r & Hr & Hc).
  rewrite <- gtb_sign, (Hr fuel Hfuel). assert (BA : between64 A B A) by (split; [exact FA|lra]). assert (BB : between64 A B B) by (split; [exact FB|lra]).
  destruct Hc as [(_ & v & Ev & Hv)|[(_ & v & Ev & Hv)|[(a & c & fa & fc & _ & Ba & Bc & _ & Ea & Ec & Ho)|(-> & _)]]].
  - exfalso. rewrite (V _ _ BA Ev) in Hv. destruct b; lra.
  - exfalso. rewrite (V _ _ BB Ev) in Hv. destruct b; lra.
  - exfalso. rewrite (V _ _ Ba Ea), (V _ _ Bc Ec) in Ho. unfold opposite in Ho. destruct b; lra.
  - reflexivity.
Qed.
