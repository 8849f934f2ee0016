(** * Neutrality errors computed in binary64 *)
From Coq Require Import ZArith Reals Bool Lia Lra Psatz SpecFloat List.
From Flocq Require Import Raux.
From Verif Require Import Num XR SF Res Arr ArrLemmas M_eos_base M_jmd95 M_jmdfwg06 M_gsw M_ntp S_eos S_float P_float P_fl P_floaterr P_eosfloat P_eosfloat2 P_eosfloat3
  P_eos P_gsw P_gsw2 P_gsw3 P_eosx P_eosocean P_eosocean2 S_domain S_named S_vert64 S_ntp P_eosfloat4 P_eosfloat5 P_linear64 P_surf64 P_traj64.
Import ListNotations.
Open Scope R_scope.

Lemma sf_mul_comm (x y : f64) : mul x y = mul y x.
Proof.
  change (SFmul 53 1024 x y = SFmul 53 1024 y x).
  destruct x as [a|a| |a m e], y as [b|b| |b n g]; cbn [SFmul]; rewrite ?(xorb_comm b a); try reflexivity.
  rewrite (Pos.mul_comm n m), (Z.add_comm g e). reflexivity.
Qed.

Lemma mean_within' (p q : f64) : finite64 p -> finite64 q -> 0 <= fval p <= 10000 -> 0 <= fval q <= 10000 ->
  S_float.within (mul (lit 5 (-1)) (add p q) : f64) ((fval p + fval q) / 2) (dec 3 (-12)).
Proof. intros. rewrite sf_mul_comm. apply mean_within; assumption. Qed.

(** as eos_s_t64_rel, the pressure or depth known up to 3e-12 *)
Definition s_t_mid (k : positive) (D : domain) (eos_s_t : f64 -> f64 -> f64 -> res (f64 * f64)) (rs rt : R -> R -> R -> R)
    (bs : f64 -> R -> Prop) (es et : ev) : Prop :=
  forall (s t p : f64) vs vt vp, dS D vs -> 0 < vs -> dT D vt -> dP D vp ->
    bs s vs -> rel (mid_t k) t vt -> S_float.within p vp (dec 3 (-12)) ->
    exists y z : f64, eos_s_t s t p = Ok (y, z) /\ rel es y (rs vs vt vp) /\ rel et z (rt vs vt vp).

(** the bounds es and et, for a salinity that is off by at most os, the mean of two being off by at most bs *)
Definition mid_bounds (k : positive) (os : ev) (s0 : R) (bs : f64 -> R -> Prop) : Prop :=
  (forall (s : f64) v, s0 <= v <= 42 -> S_float.within s v (dec 1 (Zneg k)) -> rel os s v)
  /\ forall (x y : f64) v w, s0 <= v <= 42 -> s0 <= w <= 42 -> rel os x v -> rel os y w -> bs (mul (lit 5 (-1)) (add x y)) ((v + w) / 2).

Lemma range_UR a b v : a <= v <= b -> a * UR <= v * UR <= b * UR.
Proof. intros H. pose proof UR_pos. split; apply Rmult_le_compat_r; lra. Qed.
Lemma upU_R z : IZR (upU z) = IZR z * UR.
Proof. rewrite upU_eq, mult_IZR, UR_UZ. reflexivity. Qed.

Lemma bounds_s k : grade k -> mid_bounds k (off_s k) (/ 1000) (rel (mid_s k)).
Proof.
  intros Hk. split; [exact (in_off_s k)|]. intros x y v w Hv Hw Hx Hy. unfold mid_s.
  apply (mid_rel (off_s k) _ _ _ x y v w Hx Hy (ck_mid_s k Hk) (err_small k Hk)).
  pose proof (range_UR (/ 1000) 42 ((v + w) / 2) ltac:(lra)). pose proof milli_ok. rewrite upU_R. lra.
Qed.
Lemma bounds_s0 k : grade k -> mid_bounds k (off_s0 k) 0 (fun s v => rel (mid_s0 k) (npmaximum s (lit 0 0)) v).
Proof.
  intros Hk. split.
  - intros s v Hv W. rewrite dec1 in W. apply rel_off; [apply pow_pos10|simpl; lra|exact W].
  - intros x y v w Hv Hw Hx Hy.
    assert (H : rel (mid_s0 k) (mul (lit 5 (-1)) (add x y)) ((v + w) / 2)).
    { apply (mid_rel (off_s0 k) _ _ _ x y v w Hx Hy (ck_mid_s0 k Hk) (err_small k Hk)).
      pose proof (range_UR 0 42 ((v + w) / 2) ltac:(lra)). rewrite !upU_R. lra. }
    set (m := mul (lit 5 (-1)) (add x y) : f64) in *. clearbody m. set (q := (v + w) / 2) in *. assert (Q : 0 <= q) by (unfold q; lra). clearbody q.
    destruct H as (F & V & E). destruct (max0 m F) as [F' E']. split; [exact F'|]. split; [exact V|].
    eapply Rle_trans; [|exact E]. apply Rmult_le_compat_r; [pose proof UR_pos; lra|].
    assert (E'' : fval (npmaximum m (lit 0 0)) = Rmax (fval m) 0) by exact E'. rewrite E''.
    unfold Rmax. destruct (Rle_dec (fval m) 0); [|lra]. rewrite Rabs_left1, (Rabs_left1 (fval m - q)) by lra. lra.
Qed.

Section Edge.
  Variable k : positive.
  Hypothesis Hk : grade k.
  Variables (D : domain) (s0 : R) (f : f64 -> f64 -> f64 -> res (f64 * f64)) (rs rt : R -> R -> R -> R) (bs : f64 -> R -> Prop) (os es et : ev).
  Hypothesis Hf : s_t_mid k D f rs rt bs es et.
  Hypothesis Hbs : mid_bounds k os s0 bs.
  Hypotheses (HS : forall s, dS D s -> s0 <= s <= 42) (HT : forall t, dT D t -> -3 <= t <= 40) (HP : forall p, dP D p -> 0 <= p <= 10000).
  Hypothesis Hs0 : 0 <= s0.

  Lemma mid_in (I : R -> Prop) x y : interval I -> I x -> I y -> I ((x + y) / 2).
  Proof.
    intros H Hx Hy. destruct (Rle_dec x y); [apply (H x y)|apply (H y x)]; trivial; lra.
  Qed.

  Lemma edge64 (sa ta pa sb tb pb : f64) va vb wa wb :
    dS D va -> 0 < va -> dT D wa -> dP D (fval pa) -> dS D vb -> 0 < vb -> dT D wb -> dP D (fval pb) ->
    S_float.within sa va (dec 1 (Zneg k)) -> S_float.within ta wa (dec 1 (Zneg k)) -> finite64 pa ->
    S_float.within sb vb (dec 1 (Zneg k)) -> S_float.within tb wb (dec 1 (Zneg k)) -> finite64 pb ->
    exists e, epsilon_1 f (sa, ta, pa) (sb, tb, pb) = Ok e
      /\ rel (add (mul es (sub os os)) (mul et (sub (off_t k) (off_t k)))) e (water_error rs rt (va, wa, fval pa) (vb, wb, fval pb)).
  Proof.
    intros Dva P1 Dwa Dpa Dvb P2 Dwb Dpb W1 W2 F1 W3 W4 F2.
    destruct Hbs as [Hos Hmid].
    assert (A1 := Hos sa va (HS _ Dva) W1). assert (A2 := Hos sb vb (HS _ Dvb) W3).
    assert (B1 := in_off_t k ta wa (HT _ Dwa) W2). assert (B2 := in_off_t k tb wb (HT _ Dwb) W4).
    assert (C1 := HP _ Dpa). assert (C2 := HP _ Dpb). assert (T1 := HT _ Dwa). assert (T2 := HT _ Dwb).
    assert (Mt : rel (mid_t k) (mul (lit 5 (-1)) (add ta tb)) ((wa + wb) / 2)).
    { apply (mid_rel (off_t k) _ _ _ ta tb wa wb B1 B2 (ck_mid_t k Hk) (err_small k Hk)).
      pose proof (range_UR (-3) 40 ((wa + wb) / 2) ltac:(lra)). rewrite !upU_R. simpl. lra. }
    destruct (Hf (mul (lit 5 (-1)) (add sa sb)) (mul (lit 5 (-1)) (add ta tb)) (mul (lit 5 (-1)) (add pa pb))
      ((va + vb) / 2) ((wa + wb) / 2) ((fval pa + fval pb) / 2)
      (mid_in _ _ _ (dS_interval D) Dva Dvb) ltac:(lra) (mid_in _ _ _ (dT_interval D) Dwa Dwb) (mid_in _ _ _ (dP_interval D) Dpa Dpb)
      (Hmid _ _ _ _ (HS _ Dva) (HS _ Dvb) A1 A2) Mt (mean_within' pa pb F1 F2 C1 C2)) as (y & z & E & R1 & R2).
    exists (add (mul y (sub sb sa)) (mul z (sub tb ta))). split.
    - unfold epsilon_1. rewrite E. reflexivity.
    - unfold water_error. apply rel_add; apply rel_mul; try assumption; apply rel_sub; assumption.
  Qed.
End Edge.
