(** * Computed partial derivatives of density for water that is slightly off, and neutrality errors *)
From Coq Require Import ZArith Reals Bool Lia Lra Psatz SpecFloat List.
From Flocq Require Import Raux.
From Verif Require Import Num XR SF Res M_eos_base M_jmd95 M_jmdfwg06 M_gsw M_ntp S_eos S_float P_float P_floaterr P_eosfloat P_eosfloat2 P_eosfloat3
  P_eos P_gsw P_gsw2 P_gsw3 P_eosx P_eosocean P_eosocean2 S_domain S_vert64 S_ntp P_eosfloat4.
Import ListNotations.
Open Scope R_scope.

(** the number of decimals to which salinities and temperatures are known *)
Definition grade (k : positive) : Prop := k = 13%positive \/ k = 12%positive.
Definition mid_s (k : positive) : ev := Ev milli (upU 42) (2 * err (Zpos k)).
Definition mid_s0 (k : positive) : ev := Ev (upU 0) (upU 42) (2 * err (Zpos k)).
Definition mid_t (k : positive) : ev := Ev (upU (-3)) (upU 40) (2 * err (Zpos k)).

(** the neutrality error, given the partial derivatives, in the running error analysis *)
Definition e_eps (s t : ev) (r : res (ev * ev)) : res ev :=
  match r with Ok (a, b) => Ok (add (mul a (sub s s)) (mul b (sub t t))) | Err e => Err e end.


Lemma rel_rebox l h e lo hi e' (x : f64) v : rel (Ev l h e) x v -> IZR lo <= v * UR <= IZR hi -> (e <= e')%Z -> rel (Ev lo hi e') x v.
Proof. intros (F & _ & E) V H. split; [exact F|]. split; [exact V|]. apply IZR_le in H. lra. Qed.

Definition half_sum (a : ev) : ev := mul (lit 5 (-1)) (add a a).
Definition err_of (a : ev) : Z := match a with Ev _ _ e => e | Top => (2 ^ 200)%Z end.
Lemma ck_mid_s k : grade k -> (err_of (half_sum (off_s k)) <=? 2 * err (Zpos k))%Z = true. Proof. intros [-> | ->]; vm_compute; reflexivity. Qed.
Lemma ck_mid_s0 k : grade k -> (err_of (half_sum (off_s0 k)) <=? 2 * err (Zpos k))%Z = true. Proof. intros [-> | ->]; vm_compute; reflexivity. Qed.
Lemma ck_mid_t k : grade k -> (err_of (half_sum (off_t k)) <=? 2 * err (Zpos k))%Z = true. Proof. intros [-> | ->]; vm_compute; reflexivity. Qed.

Lemma half_R x : (mul (lit 5 (-1)) x : R) = x / 2.
Proof. change (Rlit 5 (-1) * x = x / 2). unfold Rlit. simpl. lra. Qed.

Lemma mid_rel a lo hi k (x y : f64) v w : rel a x v -> rel a y w -> (err_of (half_sum a) <=? k)%Z = true ->
  (k <? 2 ^ 200)%Z = true -> IZR lo <= (v + w) / 2 * UR <= IZR hi -> rel (Ev lo hi k) (mul (lit 5 (-1)) (add x y)) ((v + w) / 2).
Proof.
  intros Hx Hy Hk K2 V. assert (H : rel (half_sum a) (mul (lit 5 (-1)) (add x y)) (mul (lit 5 (-1)) (add v w))).
  { unfold half_sum. apply rel_mul; [apply rel_lit|apply rel_add; assumption]. }
  rewrite half_R in H. change (add v w) with (v + w) in H. apply Z.leb_le in Hk. apply Z.ltb_lt in K2.
  destruct (half_sum a) as [|l h e]; cbn [err_of] in Hk; [lia|]. exact (rel_rebox _ _ _ _ _ _ _ _ H V Hk).
Qed.
Lemma err_small k : grade k -> (2 * err (Zpos k) <? 2 ^ 200)%Z = true. Proof. intros [-> | ->]; vm_compute; reflexivity. Qed.

(** ** the partial derivatives *)
Definition eos_s_t64_rel (k : positive) (D : domain) (eos_s_t : f64 -> f64 -> f64 -> res (f64 * f64)) (rs rt : R -> R -> R -> R)
    (bs : f64 -> R -> Prop) (es et : ev) : Prop :=
  forall (s t p : f64) vs vt vp, dS D vs -> 0 < vs -> dT D vt -> dP D vp ->
    bs s vs -> rel (mid_t k) t vt -> S_float.within p vp (dec 1 (-11)) ->
    exists y z : f64, eos_s_t s t p = Ok (y, z) /\ rel es y (rs vs vt vp) /\ rel et z (rt vs vt vp).

Definition pair_of_res (r : res (ev * ev)) : ev * ev := match r with Ok q => q | Err _ => (Top, Top) end.
Definition jm_st (k : positive) := pair_of_res (jmd95_rho_s_t e_dv (mid_s k) (mid_t k) off_p).
Definition jf_st (k : positive) := pair_of_res (jmdfwg06_rho_s_t e_dv (mid_s k) (mid_t k) off_p).
Definition gs_st (k : positive) := pair_of_res (gsw_specvol_s_t e_dv (mid_s0 k) (mid_t k) off_p).

(** vs and vt are partial derivatives of rho at the point *)
Definition slopes (rho vs vt : R -> R -> R -> R) (s t p : R) : Prop := diff_s rho s t p (vs s t p) /\ diff_t rho s t p (vt s t p).

Definition okb (r : res (ev * ev)) : bool := match r with Ok _ => true | Err _ => false end.
Lemma rrel2_ok ra (rx : res (f64 * f64)) v w : okb ra = true -> rrel rel2 ra rx (Ok (v, w)) ->
  exists y z, rx = Ok (y, z) /\ rel (fst (pair_of_res ra)) y v /\ rel (snd (pair_of_res ra)) z w.
Proof.
  destruct ra as [[a b]|u]; intros K H; [|discriminate].
  destruct H as ([y z] & v' & -> & E & H1 & H2). injection E as <-. exists y, z. split; [reflexivity|]. split; [exact H1|exact H2].
Qed.
Lemma ok_jm k : grade k -> okb (jmd95_rho_s_t e_dv (mid_s k) (mid_t k) off_p) = true. Proof. intros [-> | ->]; vm_compute; reflexivity. Qed.
Lemma ok_jf k : grade k -> okb (jmdfwg06_rho_s_t e_dv (mid_s k) (mid_t k) off_p) = true. Proof. intros [-> | ->]; vm_compute; reflexivity. Qed.
Lemma ok_gs k : grade k -> okb (gsw_specvol_s_t e_dv (mid_s0 k) (mid_t k) off_p) = true. Proof. intros [-> | ->]; vm_compute; reflexivity. Qed.

Lemma slopes_unique rho vs vt s t p a b : slopes rho vs vt s t p -> diff_s rho s t p a -> diff_t rho s t p b -> a = vs s t p /\ b = vt s t p.
Proof. intros [H1 H2] Ha Hb. split; eapply uniqueness_limite; eassumption. Qed.

Lemma jm_st64 k (dv : f64 -> f64 -> res f64) vs vt : grade k -> dv = sdiv \/ dv = adiv -> (forall s t p, ocean s t p -> 0 < s -> slopes jm_rho vs vt s t p) ->
  eos_s_t64_rel k (box (/ 1000) 42 (-3) 40 0 10000) (jmd95_rho_s_t dv) vs vt (rel (mid_s k)) (fst (jm_st k)) (snd (jm_st k)).
Proof.
  intros Hk Hdv Hd s t p xs xt xp Ds S0 Dt Dp Ws Wt Wp. cbn [box dS dT dP] in *. unfold upto in *.
  assert (HO : ocean xs xt xp) by (repeat split; lra). assert (D := pair_of dv Hdv).
  destruct (jm_all sdiv (or_introl eq_refl) _ _ _ (jm_ocean_dom _ _ _ HO)) as (_ & _ & E3). destruct (E3 S0) as (rs & rt & E4 & H1 & H2).
  destruct (slopes_unique _ _ _ _ _ _ _ _ (Hd _ _ _ HO S0) H1 H2) as [-> ->].
  assert (K := jmd95_rho_s_t_rel dv sdiv D _ _ _ _ _ _ _ _ _ Ws Wt (in_off_p p xp Dp Wp)). rewrite E4 in K. exact (rrel2_ok _ _ _ _ (ok_jm k Hk) K).
Qed.
Lemma jf_st64 k (dv : f64 -> f64 -> res f64) vs vt : grade k -> dv = sdiv \/ dv = adiv -> (forall s t p, ocean s t p -> 0 < s -> slopes jf_rho vs vt s t p) ->
  eos_s_t64_rel k (box (/ 1000) 42 (-3) 40 0 10000) (jmdfwg06_rho_s_t dv) vs vt (rel (mid_s k)) (fst (jf_st k)) (snd (jf_st k)).
Proof.
  intros Hk Hdv Hd s t p xs xt xp Ds S0 Dt Dp Ws Wt Wp. cbn [box dS dT dP] in *. unfold upto in *.
  assert (HO : ocean xs xt xp) by (repeat split; lra). assert (D := pair_of dv Hdv).
  destruct (jf_all sdiv (or_introl eq_refl) _ _ _ (jf_ocean_dom _ _ _ HO)) as (_ & _ & E3). destruct (E3 S0) as (rs & rt & E4 & H1 & H2).
  destruct (slopes_unique _ _ _ _ _ _ _ _ (Hd _ _ _ HO S0) H1 H2) as [-> ->].
  assert (K := jmdfwg06_rho_s_t_rel dv sdiv D _ _ _ _ _ _ _ _ _ Ws Wt (in_off_p p xp Dp Wp)). rewrite E4 in K. exact (rrel2_ok _ _ _ _ (ok_jf k Hk) K).
Qed.
Lemma gs_st64 k (dv : f64 -> f64 -> res f64) vs vt : grade k -> dv = sdiv \/ dv = adiv -> (forall s t p, ocean s t p -> 0 < s -> slopes teos_v vs vt s t p) ->
  eos_s_t64_rel k (box 0 42 (-3) 40 0 10000) (gsw_specvol_s_t dv) vs vt (fun s v => rel (mid_s0 k) (npmaximum s (lit 0 0)) v) (fst (gs_st k)) (snd (gs_st k)).
Proof.
  intros Hk Hdv Hd s t p xs xt xp Ds S0 Dt Dp Ws Wt Wp. cbn [box dS dT dP] in *. unfold upto in *.
  assert (HO : ocean xs xt xp) by (repeat split; lra). assert (D := pair_of dv Hdv).
  destruct teos_all as (h & h0 & hs & ht & hp & hd).
  destruct (hd sdiv (or_introl eq_refl) xs xt xp) as (_ & E2 & _).
  assert (X : forall u v w, h 0%nat 0%nat 0%nat u v w = teos_v u v w) by exact h0.
  assert (H1 : diff_s teos_v xs xt xp (h 1 0 0 xs xt xp)%nat).
  { unfold diff_s. apply (lim_ext (fun s' => h 0 0 0 s' xt xp)%nat); [intro; apply X|]. apply hs; [lia|exact S0]. }
  assert (H2 : diff_t teos_v xs xt xp (h 0 1 0 xs xt xp)%nat).
  { unfold diff_t. apply (lim_ext (fun t' => h 0 0 0 xs t' xp)%nat); [intro; apply X|]. apply ht. }
  destruct (slopes_unique _ _ _ _ _ _ _ _ (Hd _ _ _ HO S0) H1 H2) as [E3 E4]. rewrite E3, E4 in E2.
  assert (Ws' : rel (mid_s0 k) (npmaximum s (lit 0 0)) (Rmax xs 0)) by (rewrite Rmax_left by lra; exact Ws).
  assert (K := specvol_s_t_rel dv sdiv D _ _ _ _ _ _ _ _ _ Ws' Wt (in_off_p p xp Dp Wp)). rewrite E2 in K. exact (rrel2_ok _ _ _ _ (ok_gs k Hk) K).
Qed.
