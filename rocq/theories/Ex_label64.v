(** * The Veronis density in binary64: a concrete case *)
From Coq Require Import String ZArith Bool Reals Lra Lia List SpecFloat.
From Coquelicot Require Import Coquelicot.
From Verif Require Import Num XR SF Res Arr ArrLemmas M_eos_base M_eostools M_label S_interp S_eos S_float S_domain S_named S_traj S_vert64 S_surfaces S_entry64 S_label S_label64
  P_fl P_gsw P_gsw3 P_named P_label64d P_label64e Ex_vert64.
Import ListNotations.
Local Open Scope R_scope.

(** twice differentiable, the second derivative continuous *)
Definition smooth2 (f : R -> R) : Prop :=
  exists f1 f2, (forall x, is_derive f x (f1 x)) /\ (forall x, is_derive f1 x (f2 x)) /\ forall x, continuity_pt f2 x.
Lemma smooth_cont f : smooth2 f -> forall x, continuity_pt f x.
Proof. intros (f1 & f2 & H & _) x. apply continuity_pt_filterlim. apply (ex_derive_continuous (V := R_NormedModule)). exists (f1 x). apply H. Qed.
Lemma smooth_const c : smooth2 (fun _ => c).
Proof.
  exists (fun _ => 0), (fun _ => 0). split; [intros x; apply (is_derive_const (V := R_NormedModule))|]. split; [intros x; apply (is_derive_const (V := R_NormedModule))|].
  intros x. apply continuity_pt_const. intros a b. reflexivity.
Qed.
Lemma smooth_lin a b : smooth2 (fun x => a + b * x).
Proof.
  exists (fun _ => b), (fun _ => 0). split; [intros x; auto_derive; [trivial|ring]|]. split; [intros x; apply (is_derive_const (V := R_NormedModule))|].
  intros x. apply continuity_pt_const. intros u v. reflexivity.
Qed.
Lemma smooth_id : smooth2 (fun x => x).
Proof.
  exists (fun _ => 1), (fun _ => 0). split; [intros x; auto_derive; [trivial|ring]|]. split; [intros x; apply (is_derive_const (V := R_NormedModule))|].
  intros x. apply continuity_pt_const. intros u v. reflexivity.
Qed.
Lemma smooth_plus f g : smooth2 f -> smooth2 g -> smooth2 (fun x => f x + g x).
Proof.
  intros (f1 & f2 & A1 & A2 & A3) (g1 & g2 & B1 & B2 & B3). exists (fun x => f1 x + g1 x), (fun x => f2 x + g2 x).
  split; [intros x; apply (is_derive_plus (V := R_NormedModule)); auto|]. split; [intros x; apply (is_derive_plus (V := R_NormedModule)); auto|].
  intros x. apply continuity_pt_plus; auto.
Qed.
Lemma derive_mult f g a b x : is_derive f x a -> is_derive g x b -> is_derive (fun x => f x * g x) x (a * g x + f x * b).
Proof. intros Hf Hg. apply is_derive_Reals. apply is_derive_Reals in Hf, Hg. exact (derivable_pt_lim_mult f g x a b Hf Hg). Qed.
Lemma smooth_mult f g : smooth2 f -> smooth2 g -> smooth2 (fun x => f x * g x).
Proof.
  intros Hf Hg. assert (Cf := smooth_cont f Hf). assert (Cg := smooth_cont g Hg). destruct Hf as (f1 & f2 & A1 & A2 & A3), Hg as (g1 & g2 & B1 & B2 & B3).
  assert (Cf1 : forall x, continuity_pt f1 x) by (intros x; apply continuity_pt_filterlim; apply (ex_derive_continuous (V := R_NormedModule)); exists (f2 x); apply A2).
  assert (Cg1 : forall x, continuity_pt g1 x) by (intros x; apply continuity_pt_filterlim; apply (ex_derive_continuous (V := R_NormedModule)); exists (g2 x); apply B2).
  exists (fun x => f1 x * g x + f x * g1 x), (fun x => (f2 x * g x + f1 x * g1 x) + (f1 x * g1 x + f x * g2 x)).
  split; [intros x; apply derive_mult; auto|]. split; [intros x; apply (is_derive_plus (V := R_NormedModule)); apply derive_mult; auto|].
  intros x. repeat first [apply continuity_pt_plus|apply continuity_pt_mult]; auto.
Qed.
Lemma smooth_pow f n : smooth2 f -> smooth2 (fun x => f x ^ n).
Proof. intros H. induction n as [|n IH]; [apply (smooth_const 1)|]. exact (smooth_mult f (fun x => f x ^ n) H IH). Qed.
Lemma smooth_poly l c (y z : R -> R) : smooth2 y -> smooth2 z -> smooth2 (fun x => poly l c (y x) (z x)).
Proof.
  intros Hy Hz. induction l as [|[k [[i j] m]] l IH]; [apply (smooth_const 0)|].
  apply (smooth_plus (fun x => k * c ^ i * y x ^ j * z x ^ m) (fun x => poly l c (y x) (z x))); [|exact IH].
  apply (smooth_mult (fun x => k * c ^ i * y x ^ j) (fun x => z x ^ m)); [|apply smooth_pow; exact Hz].
  apply (smooth_mult (fun x => k * c ^ i) (fun x => y x ^ j)); [apply smooth_const|apply smooth_pow; exact Hy].
Qed.

(** two levels: salinity 35, temperature 20 at the surface and 10 at 1000 dbar *)
Definition lS : list f64 := [lit 35 0; lit 35 0].
Definition lT : list f64 := [lit 20 0; lit 10 0].
Definition lP : list f64 := [lit 0 0; lit 1000 0].
Definition ss (i : nat) : R := 35.
Definition ts (i : nat) : R := match i with O => 20 | _ => 10 end.
Definition ps (i : nat) : R := match i with O => 0 | _ => 1000 end.
Definition gS (x : R) : R := 35.
Definition gT (x : R) : R := 20 + - / 100 * x.
Definition vs := teos_d 1 0 0.
Definition vt := teos_d 0 1 0.
Definition f (x : R) : R := vs (gS x) (gT x) x.
Definition g (x : R) : R := vt (gS x) (gT x) x.

Lemma smooth_f : smooth2 f.
Proof.
  unfold f, vs, teos_d, D. cbn [Nat.iter].
  apply (smooth_mult (fun x => _) (fun _ => pf ^ 0)); [|apply smooth_const]. apply (smooth_mult (fun x => _) (fun _ => tf ^ 0)); [|apply smooth_const].
  apply (smooth_mult (fun x => _) (fun _ => sf ^ 1)); [|apply smooth_const]. unfold Rdiv, gS.
  apply (smooth_mult (fun x => poly (P_eos.d1 teos_terms) (teos_x (Rmax 35 0)) (gT x * tf) (x * pf)) (fun _ => _)); [|apply smooth_const].
  apply smooth_poly; [apply (smooth_mult gT (fun _ => tf)); [apply smooth_lin|apply smooth_const]|].
  apply (smooth_mult (fun x => x) (fun _ => pf)); [|apply smooth_const]. exact smooth_id.
Qed.
Lemma smooth_g : smooth2 g.
Proof.
  unfold g, vt, teos_d, D. cbn [Nat.iter].
  apply (smooth_mult (fun x => _) (fun _ => pf ^ 0)); [|apply smooth_const]. apply (smooth_mult (fun x => _) (fun _ => tf ^ 1)); [|apply smooth_const].
  apply (smooth_mult (fun x => _) (fun _ => sf ^ 0)); [|apply smooth_const]. unfold gS.
  apply (smooth_poly (P_eos.d2 teos_terms) (teos_x (Rmax 35 0)) (fun x => gT x * tf) (fun x => x * pf)); [apply (smooth_mult gT (fun _ => tf)); [apply smooth_lin|apply smooth_const]|].
  apply (smooth_mult (fun x => x) (fun _ => pf)); [|apply smooth_const]. exact smooth_id.
Qed.

Lemma label_partials : partials (seas 1) (at_depth 1 teos_v) vs vt.
Proof.
  intros s t p _ _ _ H. unfold at_depth, diff_s, diff_t. rewrite !Rmult_1_r. split.
  - apply (P_eos.lim_ext (fun s => teos_d 0 0 0 s t p)); [intros y; apply teos_d_0|].
    apply (teos_diff_s 0 0 0 s t p); [lia|exact H].
  - apply (P_eos.lim_ext (fun t => teos_d 0 0 0 s t p)); [intros y; apply teos_d_0|].
    apply (teos_diff_t 0 0 0 s t p).
Qed.

Lemma label_profile : profile [Fin 35; Fin 35] [Fin 20; Fin 10] [Fin 0; Fin 1000] 2 ss ts ps.
Proof.
  assert (B : forall ys Y, length Y = 2%nat -> (forall i, (i < 2)%nat -> nth_error Y i = Some (Fin (ys i))) -> block [Fin 0; Fin 1000] Y 0 2 ps ys).
  { intros ys Y HL HY. constructor; cbn [length]; try lia.
    - intros [|[|i]] Hi; [reflexivity|reflexivity|lia].
    - intros i Hi. apply HY. lia.
    - intros [|i] _ Hi; [simpl; lra|lia]. }
  constructor.
  - apply B; [reflexivity|]. intros [|[|i]] Hi; [reflexivity|reflexivity|lia].
  - apply B; [reflexivity|]. intros [|[|i]] Hi; [reflexivity|reflexivity|lia].
  - lia.
  - intros i v Hi E. apply nth_error_lt in E. cbn in E. lia.
Qed.

Lemma label_cast : cast64 (sea 0 10000) lS lT lP [Fin 35; Fin 35] [Fin 20; Fin 10] [Fin 0; Fin 1000] 2 ss ts ps 1000.
Proof.
  constructor; [held_all|held_all|held_all|exact label_profile| | |].
  - intros i Hi. cbn [sea box dS dT dP]. unfold upto, ss. destruct i as [|[|i]]; cbn [ts ps]; [lra|lra|lia].
  - intros i Hi. destruct i as [|i]; cbn [ps]; [lra|lia].
  - simpl. lra.
Qed.

Lemma label_smooth : exists M, smooth_pieces 2 ps (gradient f g gS gT) M.
Proof.
  assert (Q : smooth2 (fun x => g x * - / 100)) by (apply (smooth_mult g (fun _ => - / 100)); [exact smooth_g|apply smooth_const]).
  destruct Q as (q1 & q2 & H1 & H2 & H3).
  destruct (continuity_ab_maj (fun x => Rabs (q2 x)) 0 1000) as (m & Hm & _); [lra| |].
  { intros x _. apply (continuity_pt_comp q2 Rabs); [apply H3|apply Rcontinuity_abs]. }
  exists (Rabs (q2 m)). intros i Hi. exists (fun x => g x * - / 100), q1, q2. intros x Hx.
  split; [apply H1|]. split; [apply H2|]. split; [apply Hm; destruct i as [|i]; cbn [ps] in Hx; [exact Hx|lia]|].
  intros _. unfold gradient.
  assert (E1 : Derive gS x = 0) by (apply is_derive_unique; apply (is_derive_const (V := R_NormedModule))).
  assert (E2 : Derive gT x = - / 100) by (apply is_derive_unique; unfold gT; auto_derive; [trivial|ring]). rewrite E1, E2. ring.
Qed.

Example label64_case : exists M v I, smooth_pieces 2 ps (gradient f g gS gT) M
  /\ veronis nan (lit 600 0) lS lT lP (Some (lit 0 0)) (lit 500 0) (lit 4 0) (lit 10 0) "linear" (AStr "gsw") None None = Ok v
  /\ is_RInt (gradient f g gS gT) 0 600 I
  /\ Rabs (fval v - (teos_v 35 20 500 + 4 * I)) <= 4 * (M * (10 * (1 + powerRZ 2 (-20))) ^ 2 / 12 * (600 + 2 * 1000)) + dec 2 (-17)
       + 4 * ((10 + / 100) * (dec 4 (-18) + (2 + 30 + 15000 / 10) * dec 6 (-21))).
Proof.
  destruct label_smooth as (M & HM). exists M.
  destruct h0 as [F0 V0], h600 as [F6 V6], h500 as [F5 V5], h4 as [F4 V4], h10 as [Fx Vx].
  destruct (veronis64 "gsw" teos_v 0 (dec 2 (-17)) (dec 15 (-4)) (dec 4 (-18)) (dec 6 (-21)) None None 1 10000 vs vt) with
    (Sa := lS) (Ta := lT) (Pa := lP) (S' := [Fin 35; Fin 35]) (T' := [Fin 20; Fin 10]) (P' := [Fin 0; Fin 1000]) (K := 2%nat) (ss := ss) (ts := ts) (ps := ps) (W := 1000)
    (gS := gS) (gT := gT) (f := f) (g := g) (M := M) (junk := nan : f64) (p0 := lit 0 0 : f64) (p1 := lit 600 0 : f64) (p_ref := lit 500 0 : f64) (b := lit 4 0 : f64) (dp := lit 10 0 : f64)
    as (v & I & Ev & Fv & HI & Hv); trivial.
  - constructor.
  - apply lim_gsw. constructor.
  - constructor.
  - split; reflexivity.
  - exact label_partials.
  - exact label_cast.
  - intros x i (_ & Hi & _). destruct i as [|i]; [|lia]. unfold gS, ss, secant. cbn [ps]. unfold width. cbn [ps]. lra.
  - intros x i (_ & Hi & _). destruct i as [|i]; [|lia]. unfold gT, secant, width. cbn [ps ts]. lra.
  - apply smooth_cont. exact smooth_f.
  - apply smooth_cont. exact smooth_g.
  - rewrite V0. unfold in_range. cbn. lra.
  - rewrite V6. unfold in_range. cbn. lra.
  - rewrite V5. lra.
  - rewrite V4, Rabs_pos_eq by lra. simpl. lra.
  - rewrite Vx. lra.
  - exists v, I. rewrite V0, V6 in *. rewrite V4, V5, Vx in Hv. split; [exact HM|]. split; [exact Ev|]. split; [exact HI|].
    unfold at_depth in Hv. unfold gS at 1, gT at 1 in Hv. rewrite Rmult_0_r, Rplus_0_r, Rmult_1_r, (Rabs_pos_eq 4), (Rabs_pos_eq (600 - 0)) in Hv by lra.
    unfold variation, ss, ts in Hv. cbn [Nat.sub seq map fold_right] in Hv.
    replace (Rabs (35 - 35) + Rabs (10 - 20) + 0) with 10 in Hv by (rewrite Rminus_diag_eq, Rabs_R0, Rabs_left by lra; lra).
    replace (INR 2) with 2 in Hv by (simpl; lra). rewrite Rminus_0_r in Hv. exact Hv.
Qed.

Example outside64_case : veronis nan (lit 2000 0) lS lT lP (Some (lit 0 0)) (lit 500 0) (lit 4 0) (lit 10 0) "linear" (AStr "gsw") None None = Ok nan.
Proof.
  destruct h0 as [F0 V0], h500 as [F5 V5], h2000 as [F2 V2].
  apply (outside_any "gsw" teos_v 0 (dec 2 (-17)) (dec 15 (-4)) None None 1 10000) with (S' := [Fin 35; Fin 35]) (T' := [Fin 20; Fin 10]) (P' := [Fin 0; Fin 1000]) (K := 2%nat)
    (ss := ss) (ts := ts) (ps := ps) (W := 1000).
  - constructor.
  - apply lim_gsw. constructor.
  - split; reflexivity.
  - exact label_cast.
  - reflexivity.
  - left. exact F0.
  - left. exact F2.
  - exact F5.
  - rewrite V5. lra.
  - right. intros [_ H]. rewrite V2 in H. cbn in H. lra.
Qed.

(** the same case, with every bound a number *)
Example explicit64_case : exists (us ut : R -> R -> R -> R) v I, partials (seas 1) (at_depth 1 teos_v) us ut
  /\ veronis nan (lit 600 0) lS lT lP (Some (lit 0 0)) (lit 500 0) (lit 4 0) (lit 10 0) "linear" (AStr "gsw") None None = Ok v
  /\ is_RInt (fun x => us 35 (20 + - / 100 * x) x * Derive gS x + ut 35 (20 + - / 100 * x) x * Derive gT x) 0 600 I
  /\ Rabs (fval v - (teos_v 35 20 500 + 4 * I)) <= dec 7 (-9).
Proof.
  destruct h0 as [F0 V0], h600 as [F6 V6], h500 as [F5 V5], h4 as [F4 V4], h10 as [Fx Vx].
  destruct (veronis64_explicit "gsw" teos_v 0 (dec 2 (-17)) (dec 15 (-4)) (dec 4 (-18)) (dec 6 (-21)) 30 (dec 72 (-9)) None None 1 10000 vs vt) with
    (Sa := lS) (Ta := lT) (Pa := lP) (S' := [Fin 35; Fin 35]) (T' := [Fin 20; Fin 10]) (P' := [Fin 0; Fin 1000]) (K := 2%nat) (ss := ss) (ts := ts) (ps := ps) (W := 1000) (L := / 100)
    (gS := gS) (gT := gT) (junk := nan : f64) (p0 := lit 0 0 : f64) (p1 := lit 600 0 : f64) (p_ref := lit 500 0 : f64) (b := lit 4 0 : f64) (dp := lit 10 0 : f64)
    as (v & I & Ev & Fv & HI & Hv); trivial.
  - constructor.
  - apply lim_gsw. constructor.
  - constructor.
  - constructor.
  - split; reflexivity.
  - exact label_partials.
  - exact label_cast.
  - intros i _. unfold ss. lra.
  - split; [lra|]. intros [|i] Hi; [|lia]. cbn [ps ts]. unfold ss. rewrite Rminus_diag_eq, Rabs_R0, Rabs_left by lra. lra.
  - intros x i (_ & Hi & _). destruct i as [|i]; [|lia]. unfold gS, ss, secant. cbn [ps]. unfold width. cbn [ps]. lra.
  - intros x i (_ & Hi & _). destruct i as [|i]; [|lia]. unfold gT, secant, width. cbn [ps ts]. lra.
  - rewrite V0. unfold in_range. cbn. lra.
  - rewrite V6. unfold in_range. cbn. lra.
  - rewrite V5. lra.
  - rewrite V4, Rabs_pos_eq by lra. simpl. lra.
  - rewrite Vx. lra.
  - exists vs, vt, v, I. split; [exact label_partials|]. rewrite V0, V6 in *. rewrite V4, V5, Vx in Hv. split; [exact Ev|]. split; [exact HI|].
    unfold at_depth in Hv. unfold gS at 1, gT at 1 in Hv. rewrite Rmult_0_r, Rplus_0_r, Rmult_1_r, (Rabs_pos_eq 4), (Rabs_pos_eq (600 - 0)) in Hv by lra.
    unfold variation, ss, ts in Hv. cbn [Nat.sub seq map fold_right] in Hv.
    replace (Rabs (35 - 35) + Rabs (10 - 20) + 0) with 10 in Hv by (rewrite Rminus_diag_eq, Rabs_R0, Rabs_left by lra; lra).
    replace (INR 2) with 2 in Hv by (simpl; lra). rewrite Rminus_0_r in Hv. eapply Rle_trans; [exact Hv|]. unfold dec. simpl. lra.
Qed.
