(** * Derivatives of the equations of state in binary64 where salinity or temperature is missing *)
From Coq Require Import ZArith Reals Bool Lia Lra Psatz SpecFloat List.
From Flocq Require Import Raux.
From Verif Require Import Num XR SF Res M_eos_base M_jmd95 M_jmdfwg06 M_gsw M_ntp S_float P_float P_fl P_linear64 P_surf64 P_floaterr P_eosfloat2 S_vert64 S_ntp64.
Open Scope R_scope.

Notation NAN := (S754_nan : f64).
Lemma add_nan_l (x : f64) : add NAN x = NAN. Proof. reflexivity. Qed.
Lemma add_nan_r (x : f64) : add x NAN = NAN. Proof. destruct x; reflexivity. Qed.
Lemma mul_nan_l (x : f64) : mul NAN x = NAN. Proof. reflexivity. Qed.
Lemma mul_nan_r (x : f64) : mul x NAN = NAN. Proof. destruct x; reflexivity. Qed.
Lemma sub_nan_l (x : f64) : sub NAN x = NAN. Proof. reflexivity. Qed.
Lemma sub_nan_r (x : f64) : sub x NAN = NAN. Proof. destruct x; reflexivity. Qed.
Lemma sqrt_nan : fsqrt NAN = NAN. Proof. reflexivity. Qed.
Lemma sdiv_nan_r (x : f64) : sdiv x NAN = Ok NAN. Proof. destruct x; reflexivity. Qed.
Ltac nan64 := repeat first [rewrite add_nan_l|rewrite add_nan_r|rewrite mul_nan_l|rewrite mul_nan_r|rewrite sub_nan_l|rewrite sub_nan_r
  |rewrite sqrt_nan|rewrite sdiv_nan_r; cbn [bind]].

(** the function does not raise if salinity is missing, or temperature is *)
Definition nan_safe64 (f : f64 -> f64 -> f64 -> res (f64 * f64)) : Prop :=
  forall s t p, s = NAN \/ t = NAN /\ finite64 s /\ Rabs (fval s) <= 2000 -> exists r, f s t p = Ok r.

Lemma jmd95_safe : nan_safe64 (jmd95_rho_s_t sdiv).
Proof. intros s t p [-> | [-> _]]; unfold jmd95_rho_s_t; nan64; eexists; reflexivity. Qed.
Lemma jmdfwg06_safe : nan_safe64 (jmdfwg06_rho_s_t sdiv).
Proof. intros s t p [-> | [-> _]]; unfold jmdfwg06_rho_s_t; nan64; eexists; reflexivity. Qed.

Definition any_s : ev := Ev (upU 0) (upU 2000) 0.
Definition any_x : ev := fsqrt (add (mul sfac any_s) offset).
Lemma any_s_rel (s : f64) : finite64 s -> Rabs (fval s) <= 2000 -> rel any_s (npmaximum s (lit 0 0)) (Rmax (fval s) 0).
Proof.
  intros F H. destruct (max0 s F) as [F' E']. split; [exact F'|]. assert (E'' : fval (npmaximum s (lit 0 0)) = Rmax (fval s) 0) by exact E'. rewrite E''.
  pose proof UR_pos as U. apply Rabs_le_inv in H. assert (M : 0 <= Rmax (fval s) 0 <= 2000) by (unfold Rmax; destruct (Rle_dec (fval s) 0); lra).
  rewrite !upU_eq, !mult_IZR, <- UR_UZ. split.
  - split; apply Rmult_le_compat_r; lra.
  - unfold Rminus. rewrite Rplus_opp_r, Rabs_R0. simpl. lra.
Qed.
Definition positive (a : ev) : bool := match a with Ev lo _ er => (er <? lo)%Z && (0 <=? er)%Z | Top => false end.
Lemma positive_ok a (x : f64) v : positive a = true -> rel a x v -> finite64 x /\ 0 < fval x.
Proof.
  destruct a as [|lo hi er]; [discriminate|]. cbn [positive]. rewrite andb_true_iff, Z.ltb_lt, Z.leb_le. intros [H1 H2] (F & [V1 V2] & E).
  split; [exact F|]. apply IZR_lt in H1. pose proof UR_pos as U.
  destruct (Rlt_dec 0 (fval x)) as [P|P]; [exact P|exfalso].
  assert (v * UR <= Rabs (fval x - v) * UR); [|lra]. apply Rmult_le_compat_r; [lra|].
  assert (0 < v). { destruct (Rlt_dec 0 v) as [Q|Q]; [exact Q|]. assert (v * UR <= 0) by nra. apply IZR_le in H2. lra. }
  rewrite Rabs_left1 by lra. lra.
Qed.
Lemma ck_any_x : positive any_x = true. Proof. vm_compute. reflexivity. Qed.

Lemma x_nonzero64 (s : f64) : s = NAN \/ finite64 s /\ Rabs (fval s) <= 2000 -> eqb (fsqrt (add (mul sfac (npmaximum s (lit 0 0))) offset)) (zero : f64) = false.
Proof.
  intros [-> | [F H]].
  - change (npmaximum NAN (lit 0 0)) with NAN. nan64. reflexivity.
  - assert (K := any_s_rel s F H). set (m := npmaximum s (lit 0 0) : f64) in *. clearbody m. set (v := Rmax (fval s) 0) in *. clearbody v.
    assert (X : rel any_x (fsqrt (add (mul sfac m) offset)) (fsqrt (add (mul sfac v) offset))).
    { unfold any_x, sfac, offset. repeat rel1. }
    destruct (positive_ok _ _ _ ck_any_x X) as [F' P]. set (x := fsqrt _ : f64) in *. clearbody x.
    destruct fl_zero as [F0 E0]. change (SFeqb x (lit 0 0 : f64) = false). rewrite (eqb_val x (lit 0 0 : f64) F' F0).
    apply Req_bool_false. rewrite E0. lra.
Qed.

Lemma gsw_safe : nan_safe64 (gsw_specvol_s_t sdiv).
Proof.
  intros s t p H. unfold gsw_specvol_s_t, gsw__process. cbn [bind].
  assert (H' : s = NAN \/ finite64 s /\ Rabs (fval s) <= 2000) by (destruct H as [H|[_ H]]; [left; exact H|right; exact H]).
  assert (X := x_nonzero64 s H'). set (x := fsqrt _) in *. set (y := mul t tfac). set (z := mul p pfac).
  unfold gsw__s.
  assert (E : forall a, sdiv a x = Ok (div a x)) by (intros a; unfold sdiv; rewrite X; reflexivity).
  rewrite E. cbn [bind]. unfold gsw__t. cbn [bind]. eexists. reflexivity.
Qed.

(** ** the neutrality error of an edge that lacks salinity or temperature *)
Lemma half_add_nan_l (x : f64) : mul (lit 5 (-1) : f64) (add NAN x) = NAN. Proof. reflexivity. Qed.
Lemma half_add_nan_r (x : f64) : mul (lit 5 (-1) : f64) (add x NAN) = NAN. Proof. rewrite add_nan_r. reflexivity. Qed.

Lemma mean_salt (x y : f64) : finite64 x -> Rabs (fval x) <= 1000 -> finite64 y -> Rabs (fval y) <= 1000 ->
  finite64 (mul (lit 5 (-1) : f64) (add x y)) /\ Rabs (fval (mul (lit 5 (-1) : f64) (add x y))) <= 2000.
Proof.
  intros Fx Hx Fy Hy. apply Rabs_le_inv in Hx, Hy. pose proof eta64_pos as E0.
  assert (e1 : eta64 <= / 1000) by (apply Rle_trans with (powerRZ 2 (-10)); [apply pow2_le; lia|simpl; lra]).
  assert (U : u64 = / 9007199254740992) by reflexivity.
  assert (Q : Rabs (fval x + fval y) <= 2000) by (apply Rabs_le; lra).
  destruct (sf_add_near x y Fx Fy (small_big _ (Rle_trans _ 2000 1000000 Q ltac:(lra)))) as [Fs Es]. change (sf_add x y) with (add x y) in *.
  set (a := add x y) in *. clearbody a.
  assert (Ba : Rabs (fval a) <= 2001).
  { replace (fval a) with ((fval x + fval y) + (fval a - (fval x + fval y))) by ring. eapply Rle_trans; [apply Rabs_triang|]. rewrite U in Es. lra. }
  destruct fl_half as [Fh Eh]. set (h := lit 5 (-1) : f64) in *. clearbody h.
  assert (Q2 : Rabs (fval h * fval a) <= 2001 / 2) by (rewrite Eh, Rabs_mult, (Rabs_pos_eq (/ 2)) by lra; lra).
  destruct (sf_mul_near h a Fh Fs (small_big _ (Rle_trans _ (2001 / 2) 1000000 Q2 ltac:(lra)))) as [Fm Em]. change (sf_mul h a) with (mul h a) in *.
  split; [exact Fm|]. set (m := fval (mul h a)) in *. clearbody m.
  replace m with ((fval h * fval a) + (m - (fval h * fval a))) by ring. eapply Rle_trans; [apply Rabs_triang|]. rewrite U in Em. lra.
Qed.

(** salinity, or temperature with an ordinary salinity, is missing *)
Definition dry64 (x : bottle64) : Prop := let '(s, t, _) := x in s = NAN \/ t = NAN /\ finite64 s /\ Rabs (fval s) <= 1000.
Definition wet64 (x : bottle64) : Prop := let '(s, t, _) := x in finite64 s /\ Rabs (fval s) <= 1000.

Lemma edge_dry64 f x y : nan_safe64 f -> dry64 x /\ (dry64 y \/ wet64 y) \/ wet64 x /\ dry64 y -> epsilon_1 f x y = Ok NAN.
Proof.
  intros Hf H. destruct x as [[sa ta] pa], y as [[sb tb] pb]. unfold epsilon_1.
  match goal with |- bind (f ?a ?b ?c) _ = _ => assert (G : exists r, f a b c = Ok r) end.
  { apply Hf. unfold dry64, wet64 in H.
    assert (NL : forall u v : f64, u = NAN \/ v = NAN -> mul (lit 5 (-1) : f64) (add u v) = NAN).
    { intros u v [-> | ->]; [apply half_add_nan_l|apply half_add_nan_r]. }
    assert (C : (sa = NAN \/ sb = NAN) \/ (ta = NAN \/ tb = NAN) /\ (finite64 sa /\ Rabs (fval sa) <= 1000) /\ (finite64 sb /\ Rabs (fval sb) <= 1000)) by tauto.
    destruct C as [C|(C & [Fa Ha] & [Fb Hb])]; [left; apply NL; exact C|right]. split; [apply NL; exact C|apply mean_salt; assumption]. }
  destruct G as [[rs rt] E]. rewrite E. cbn [bind]. f_equal.
  unfold dry64, wet64 in H. destruct H as [[[->|(-> & _)] _]|[_ [->|(-> & _)]]]; nan64; reflexivity.
Qed.
