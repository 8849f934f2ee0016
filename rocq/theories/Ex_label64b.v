(** * The Veronis density in binary64 increases: a concrete case *)
From Coq Require Import String ZArith Bool Reals Lra Lia List SpecFloat.
From Coquelicot Require Import Coquelicot.
From Verif Require Import Num XR SF Res Arr ArrLemmas M_eos_base M_eostools M_label S_interp S_eos S_float S_domain S_named S_traj S_vert64 S_surfaces S_entry64 S_label S_label64
  P_fl P_gsw P_gsw3 P_named P_label64d P_label64e P_label64f Ex_vert64 Ex_label64.
From Verif Require P_eosbound P_eosocean.
Import ListNotations.
Local Open Scope R_scope.

(** two levels: salinity 30 at the surface and 40 at 1000 dbar, temperature 10 *)
Definition iS : list f64 := [lit 30 0; lit 40 0].
Definition iT : list f64 := [lit 10 0; lit 10 0].
Definition iss (i : nat) : R := match i with O => 30 | _ => 40 end.
Definition its (i : nat) : R := 10.
Definition igS (x : R) : R := 30 + / 100 * x.
Definition igT (x : R) : R := 10.

Lemma h30 : S_vert64.holds (lit 30 0 : f64) (Fin 30). Proof. unfold S_vert64.holds. const64 8444249301319680%positive (-48)%Z. Qed.
Lemma h40 : S_vert64.holds (lit 40 0 : f64) (Fin 40). Proof. unfold S_vert64.holds. const64 5629499534213120%positive (-47)%Z. Qed.
Lemma h300 : S_vert64.holds (lit 300 0 : f64) (Fin 300). Proof. unfold S_vert64.holds. const64 5277655813324800%positive (-44)%Z. Qed.
Lemma hm4 : S_vert64.holds (lit (-4) 0 : f64) (Fin (-4)).
Proof.
  unfold S_vert64.holds. change (lit (-4) 0 : f64) with (S754_finite true 4503599627370496%positive (-50)%Z).
  split; [split; [reflexivity|split; [lia|right; lia]]|rewrite fval_neg; cbn [Z.pow Z.pow_pos Pos.iter Z.mul Pos.mul]; lra].
Qed.

Definition strong (I J K : P_eosbound.itv) : bool := (snd (P_eosbound.ihorner P_eosocean.teos_s_h I J K) <? - 10 ^ 19)%Z.
Definition ix := P_eosbound.pieces (P_eosocean.mi 1150) (P_eosocean.mi 15) 8.
Definition iy := P_eosbound.pieces (P_eosocean.mi 250) (P_eosocean.mi 0) 1.
Definition iz := P_eosbound.pieces (P_eosocean.mi 0) (P_eosocean.mi 100) 1.
Lemma ck_strong : P_eosbound.on_boxes strong ix iy iz = true.
Proof. vm_compute. reflexivity. Qed.

Lemma strong_vs x : 0 <= x <= 1000 -> vs (igS x) 10 x <= - dec 9 (-8).
Proof.
  intros Hx. unfold vs, teos_d. cbn [D Nat.iter nat_rect pow]. rewrite <- P_eosocean.teos_s_horner, !Rmult_1_r.
  assert (Hs : 30 <= igS x <= 40) by (unfold igS; lra). rewrite (Rmax_left (igS x) 0) by lra.
  pose proof (teos_x_pos (igS x)) as H0. pose proof (teos_x_sq (igS x)) as H2. rewrite (Rmax_left (igS x) 0) in H0, H2 by lra.
  rewrite P_eosocean.sf_val, P_eosocean.off_val in H2. rewrite P_eosocean.sf_val, P_eosocean.tf_val, P_eosocean.pf_val. set (z := teos_x (igS x)) in *.
  assert (Hz : 115 / 100 <= z <= 127 / 100) by (split; apply Rnot_lt_le; intro Hc; nra).
  destruct (P_eosocean.pieces_mi 8 1150 15 z) as (I1 & HI1 & HI1'); [lia|cbn; lra|].
  destruct (P_eosocean.pieces_mi 1 250 0 (10 * (25 / 1000))) as (I2 & HI2 & HI2'); [lia|cbn; lra|].
  destruct (P_eosocean.pieces_mi 1 0 100 (x * (1 / 10000))) as (I3 & HI3 & HI3'); [lia|cbn; lra|].
  pose proof (P_eosbound.on_boxes_ok _ _ _ _ ck_strong I1 I2 I3 HI1 HI2 HI3) as Hb.
  pose proof (P_eosbound.ihorner_ok P_eosocean.teos_s_h _ _ _ _ _ _ HI1' HI2' HI3') as [_ Hi].
  unfold strong in Hb. apply Z.ltb_lt, IZR_lt in Hb. set (h := P_eosbound.rhorner _ _ _ _) in *.
  assert (Hh : h <= - / 100000).
  { assert (E : h * IZR P_eosbound.scale <= IZR (- 10 ^ 19)) by lra. unfold P_eosbound.scale in E.
    change (10 ^ 24)%Z with 1000000000000000000000000%Z in E. change (- 10 ^ 19)%Z with (-10000000000000000000)%Z in E. lra. }
  unfold dec. simpl. 
  assert (Hd : h / (2 * z) <= - / 260000).
  { apply (Rmult_le_reg_r (2 * z)); [lra|]. unfold Rdiv. rewrite Rmult_assoc, Rinv_l, Rmult_1_r by lra. lra. }
  lra.
Qed.

Lemma inc_profile : profile [Fin 30; Fin 40] [Fin 10; Fin 10] [Fin 0; Fin 1000] 2 iss its ps.
Proof.
  assert (B : forall ys Y, length Y = 2%nat -> (forall i, (i < 2)%nat -> nth_error Y i = Some (Fin (ys i))) -> block [Fin 0; Fin 1000] Y 0 2 ps ys).
  { intros ys Y HL HY. constructor; cbn [length]; try lia.
    - intros [|[|i]] Hi; [reflexivity|reflexivity|lia].
    - intros i Hi. apply HY. lia.
    - intros [|i] _ Hi; [simpl; lra|lia]. }
  constructor.
  - apply B; [reflexivity|]. intros [|[|i]] Hi; [reflexivity|reflexivity|lia].
  - apply B; [reflexivity|]. intros [|[|i]] Hi; [reflexivity|reflexivity|lia].
  - lia.
  - intros i v Hi E. apply nth_error_lt in E. cbn in E. lia.
Qed.

Lemma inc_cast : cast64 (sea 0 10000) iS iT lP [Fin 30; Fin 40] [Fin 10; Fin 10] [Fin 0; Fin 1000] 2 iss its ps 1000.
Proof.
  constructor; [apply Forall2_cons; [exact h30|apply Forall2_cons; [exact h40|apply Forall2_nil]]|held_all|held_all|exact inc_profile| | |].
  - intros i Hi. cbn [sea box dS dT dP]. unfold upto, its. destruct i as [|[|i]]; cbn [iss ps]; [lra|lra|lia].
  - intros i Hi. destruct i as [|i]; cbn [ps]; [lra|lia].
  - simpl. lra.
Qed.

Example increasing64_case : exists u v,
  veronis nan (lit 300 0) iS iT lP (Some (lit 0 0)) (lit 500 0) (lit (-4) 0) (lit 10 0) "linear" (AStr "gsw") None None = Ok u
  /\ veronis nan (lit 600 0) iS iT lP (Some (lit 0 0)) (lit 500 0) (lit (-4) 0) (lit 10 0) "linear" (AStr "gsw") None None = Ok v
  /\ finite64 u /\ finite64 v /\ fval u < fval v.
Proof.
  destruct h0 as [F0 V0], h600 as [F6 V6], h500 as [F5 V5], h10 as [Fx Vx], h300 as [F3 V3], hm4 as [F4 V4].
  apply (veronis64_increasing "gsw" teos_v 0 (dec 2 (-17)) (dec 15 (-4)) (dec 4 (-18)) (dec 6 (-21)) 30 (dec 72 (-9)) None None 1 10000 vs vt) with
    (S' := [Fin 30; Fin 40]) (T' := [Fin 10; Fin 10]) (P' := [Fin 0; Fin 1000]) (K := 2%nat) (ss := iss) (ts := its) (ps := ps) (W := 1000) (L := / 100)
    (gS := igS) (gT := igT) (m := 4 * dec 9 (-8) * / 100); trivial.
  - constructor.
  - apply lim_gsw. constructor.
  - constructor.
  - constructor.
  - split; reflexivity.
  - exact label_partials.
  - exact inc_cast.
  - intros [|i] _; cbn [iss]; lra.
  - split; [lra|]. intros [|i] Hi; [|lia]. cbn [ps iss]. unfold its. rewrite (Rminus_diag_eq 10 10), Rabs_R0, Rabs_right by lra. lra.
  - intros x i (_ & Hi & _). destruct i as [|i]; [|lia]. unfold igS, secant, width. cbn [ps iss]. lra.
  - intros x i (_ & Hi & _). destruct i as [|i]; [|lia]. unfold igT, its, secant, width. cbn [ps]. lra.
  - rewrite V0. unfold in_range. cbn. lra.
  - rewrite V3. unfold in_range. cbn. lra.
  - rewrite V6. unfold in_range. cbn. lra.
  - rewrite V3, V6. lra.
  - rewrite V5. lra.
  - rewrite V4, Rabs_left by lra. simpl. lra.
  - rewrite Vx. lra.
  - intros i x _ _ Hx. rewrite V3, V6 in Hx. rewrite V4. unfold igT at 1.
    assert (E1 : Derive igS x = / 100) by (apply is_derive_unique; unfold igS; auto_derive; [trivial|ring]).
    assert (E2 : Derive igT x = 0) by (apply is_derive_unique; apply (is_derive_const (V := R_NormedModule))).
    rewrite E1, E2. pose proof (strong_vs x ltac:(lra)). lra.
  - rewrite V0, V3, V6, V4, Vx. rewrite (Rabs_left (-4)), (Rabs_right (300 - 0)), (Rabs_right (600 - 0)) by lra.
    unfold variation, its. cbn [Nat.sub seq map fold_right iss].
    rewrite (Rminus_diag_eq 10 10), Rabs_R0, (Rabs_right (40 - 30)) by lra. replace (INR 2) with 2 by (simpl; lra). unfold dec. simpl. lra.
Qed.
