(** * The Veronis density: concrete cases *)
From Coq Require Import String ZArith Bool Reals Lra Lia List.
From Coquelicot Require Import Coquelicot.
From Verif Require Import Num XR SF Res Arr ArrLemmas XRlemmas M_numpy M_ppinterp S_interp P_ppinterp P_pval P_interp M_make_pp M_eos_base M_eostools
  M_label S_traj S_label P_quad P_label P_label2 P_label3.
Import ListNotations.

(** the example of the docstring (label.py:133-137), in binary64.  A test: the value is
    computed while this file is compiled and nothing is left for the kernel to check again. *)
Definition docstring : res f64 :=
  let S := linspace (lit 34 0) (lit 355 (-1)) 20 in
  let T := linspace (lit 18 0) (lit 0 0) 20 in
  let P := linspace (lit 0 0) (lit 4000 0) 20 in
  @veronis f64 _ nan (lit 2000 0) S T P None (lit 0 0) (lit 1 0) (lit 1 0) "linear" (AStr "jmd95") None None.
Definition docstring_tested : unit :=
  ltac:(let x := eval vm_compute in docstring in
        let y := eval vm_compute in (@Ok f64 (lit 1027098197160422 (-12))) in
        constr_eq x y; exact tt).

Local Open Scope R_scope.

(** two levels, salinity equal to pressure, density s (1 + p^2) *)
Definition S2 : list xr := [Fin 0; Fin 1].
Definition T2 : list xr := [Fin 0; Fin 0].
Definition lev (i : nat) : R := INR i.
Definition rho2 (s t p : xr) : res xr := Ok (mul s (add (Fin 1) (mul p p))).
Definition rho2_s_t (s t p : xr) : res (xr * xr) := Ok (add (Fin 1) (mul p p), Fin 0).
Definition eos2 : arg := ATup [AFun (F1 rho2); AFun (F2 rho2_s_t)].
Definition f2 (x : R) : R := 1 + x * x.
Definition id2 (x : R) : R := x.
Definition zero2 (x : R) : R := 0.

Lemma profile2 : profile S2 T2 S2 2 lev (fun _ => 0) lev.
Proof.
  assert (B : forall ys Y, length Y = 2%nat -> (forall i, (i < 2)%nat -> nth_error Y i = Some (Fin (ys i))) -> block S2 Y 0 2 lev ys).
  { intros ys Y HL HY. constructor; cbn [length S2]; try lia.
    - intros [|[|i]] Hi; [reflexivity|reflexivity|lia].
    - intros i Hi. apply HY. lia.
    - intros [|i] _ Hi; [unfold lev; simpl; lra|lia]. }
  constructor.
  - apply B; [reflexivity|]. intros [|[|i]] Hi; [reflexivity|reflexivity|lia].
  - apply B; [reflexivity|]. intros [|[|i]] Hi; [reflexivity|reflexivity|lia].
  - lia.
  - intros i v Hi E. apply nth_error_lt in E. cbn in E. lia.
Qed.

Lemma interpolants2 : interpolants "linear" 2 lev (fun _ => 0) lev id2 zero2.
Proof.
  left. split; [reflexivity|]. split; intros x i (_ & H & _); destruct i as [|i]; try lia;
    unfold secant, lev, id2, zero2; simpl; field.
Qed.

Lemma density2 p0 p_ref : density eos2 None None 2 lev id2 zero2 p0 p_ref (p0 * (1 + p_ref * p_ref)) f2 zero2.
Proof.
  constructor.
  - exists rho2, (Some (F2 rho2_s_t)). split; [reflexivity|]. reflexivity.
  - exists rho2_s_t, (F1 rho2). split; [reflexivity|]. intros x _. reflexivity.
  - intros x. apply continuity_pt_filterlim. apply (ex_derive_continuous (V := R_NormedModule)). unfold f2. auto_derive. trivial.
  - intros x. apply continuity_pt_const. intros a b. reflexivity.
Qed.

Lemma gradient2 x : gradient f2 zero2 id2 zero2 x = 1 + x * x.
Proof.
  unfold gradient, f2, zero2. rewrite (Derive_id x : Derive id2 x = 1). ring.
Qed.

Lemma smooth2 : smooth_pieces 2 lev (gradient f2 zero2 id2 zero2) 2.
Proof.
  intros i Hi. exists (fun x => 1 + x * x), (fun x => 2 * x), (fun _ => 2). intros x _.
  split; [auto_derive; [trivial|ring]|]. split; [auto_derive; [trivial|ring]|].
  split; [rewrite Rabs_right; lra|]. intros _. apply gradient2.
Qed.

Lemma spacing2 : spacing 2 lev 1.
Proof. intros [|i] Hi; [unfold lev; simpl; lra|lia]. Qed.

Lemma Rceil_is x z : IZR z - 1 < x -> x <= IZR z -> Rceil x = z.
Proof.
  intros H1 H2. destruct (Rceil_spec x) as [A B].
  assert (Rceil x < z + 1)%Z by (apply lt_IZR; rewrite plus_IZR; lra).
  assert (z - 1 < Rceil x)%Z by (apply lt_IZR; rewrite minus_IZR; lra). lia.
Qed.

(** ** Not monotone: a stably stratified cast (gradient at least 1) on which the Veronis
    density falls between p0 = 0.49 and p1 = 0.5, with dp = 0.5 *)
Lemma search2 p : 0 < p -> p <= 1 -> piece S2 p = 0%nat.
Proof.
  intros H1 H2. unfold piece, S2. unfold searchsorted. cbn [length bsearch Nat.ltb Nat.leb Nat.div Nat.divmod fst snd Nat.sub Nat.add nth ltb xrNum xr_ltb].
  repeat (rcase; try (exfalso; lra)); reflexivity.
Qed.

Lemma falls : exists v, veronis NaN (Fin (1 / 2)) S2 T2 S2 (Some (Fin (49 / 100))) (Fin 0) (Fin 1) (Fin (1 / 2)) "linear" eos2 None None
  = Ok (Fin v) /\ v < 49 / 100.
Proof.
  pose proof (linear_rows _ _ _ _ _ _ (pf_S _ _ _ _ _ _ _ profile2) NaN) as (C & EC & LC & RC).
  pose proof (linear_rows _ _ _ _ _ _ (pf_T _ _ _ _ _ _ _ profile2) NaN) as (C' & EC' & _ & RC').
  set (cS := lin_c lev lev) in *. set (cT := lin_c lev (fun _ => 0)) in *.
  assert (HG : forall i x, (S i < 2)%nat -> lev i <= x <= lev (S i) ->
          id2 x = pval (x - lev i) (cS i) 0 /\ zero2 x = pval (x - lev i) (cT i) 0).
  { intros [|i] x Hi _; [|lia]. unfold cS, cT. rewrite !lin_val. unfold secant, lev, id2, zero2. simpl. split; field. }
  assert (R1 : in_range 2 lev (49 / 100)) by (unfold in_range, lev; simpl; lra).
  assert (R2 : in_range 2 lev (1 / 2)) by (unfold in_range, lev; simpl; lra).
  exists (49 / 100 * (1 + 0 * 0) + 1 * DD S2 lev cS cT (1 / 2) f2 zero2 (49 / 100) (1 / 2)). split.
  - unfold veronis. cbn [_process_eos eos2 bind fst snd].
    change (make_pp "linear" "1" "coeffs" true 1) with (Ok "linear_coeffs_1"%string). cbn [bind].
    change (ppc_named NaN "linear_coeffs_1") with (linear_coeffs_1 NaN). rewrite EC, EC'. cbn [bind].
    unfold _veronis.
    rewrite (pot_dens_real S2 T2 S2 2 lev (fun _ => 0) lev id2 zero2 "linear" profile2 NaN C C' cS cT (49 / 100) 0 rho2 (49 / 100 * (1 + 0 * 0)));
      [|exact EC|exact LC|intros; apply RC; lia|intros; apply RC'; lia|exact HG|exact R1|reflexivity].
    cbn [bind]. unfold _veronis_affine.
    rewrite (int_real S2 2 lev (HP_pf _ _ _ _ _ _ _ profile2) (Hinc_pf _ _ _ _ _ _ _ profile2) ltac:(lia) (pf_deep _ _ _ _ _ _ _ profile2)
      C C' cS cT ltac:(intros; apply RC; lia) ltac:(intros; apply RC'; lia) (1 / 2) ltac:(lra) rho2_s_t f2 zero2); [reflexivity| |exact R1|exact R2].
    intros i x Hi Hx. destruct (HG i x Hi Hx) as [<- <-]. reflexivity.
  - unfold DD. destruct (Rle_dec (49 / 100) (1 / 2)) as [_|]; [|lra]. unfold D. rewrite !search2 by lra. cbn [Nat.sub Jsum].
    assert (E1 : nsteps (49 / 100) (lev 1) (1 / 2) = 2%nat).
    { unfold nsteps, lev. simpl. rewrite (Rceil_is _ 2) by lra. reflexivity. }
    assert (E2 : nsteps (1 / 2) (lev 1) (1 / 2) = 1%nat).
    { unfold nsteps, lev. simpl. rewrite (Rceil_is _ 1) by lra. reflexivity. }
    unfold J. rewrite E1, E2. rewrite !linspace_SS. cbn [seq map tlist]. unfold point. cbn [Nat.eqb].
    assert (Y : forall x, yk lev cS cT f2 zero2 0 x = 1 + x * x).
    { intros x. unfold yk, cS, cT, f2, zero2. rewrite !lin_der. unfold secant, lev. simpl. field. }
    rewrite !Y. unfold lev. simpl. lra.
Qed.

Lemma not_monotone : exists S T P K ss ts ps gS gT eos p0 p1 p_ref d0 f g dp v,
  profile S T P K ss ts ps /\ interpolants "linear" K ss ts ps gS gT /\
  density eos None None K ps gS gT p0 p_ref d0 f g /\ in_range K ps p0 /\ in_range K ps p1 /\ 0 < dp /\
  (forall x, 1 <= gradient f g gS gT x) /\ p0 < p1 /\
  veronis NaN (Fin p1) S T P (Some (Fin p0)) (Fin p_ref) (Fin 1) (Fin dp) "linear" eos None None = Ok (Fin v) /\ v < d0.
Proof.
  destruct falls as (v & E & Hv).
  exists S2, T2, S2, 2%nat, lev, (fun _ => 0), lev, id2, zero2, eos2, (49 / 100), (1 / 2), 0, (49 / 100 * (1 + 0 * 0)), f2, zero2, (1 / 2), v.
  split; [exact profile2|]. split; [exact interpolants2|]. split; [apply density2|].
  split; [unfold in_range, lev; simpl; lra|]. split; [unfold in_range, lev; simpl; lra|]. split; [lra|].
  split; [intros x; rewrite gradient2; pose proof (Rle_0_sqr x) as Q; unfold Rsqr in Q; lra|].
  split; [lra|]. split; [exact E|lra].
Qed.

(** with dp = 0.1 it rises from 0.25 to 0.75 *)
Lemma rises : exists u v, veronis NaN (Fin (/ 4)) S2 T2 S2 (Some (Fin 0)) (Fin 0) (Fin 1) (Fin (/ 10)) "linear" eos2 None None = Ok (Fin u)
  /\ veronis NaN (Fin (3 / 4)) S2 T2 S2 (Some (Fin 0)) (Fin 0) (Fin 1) (Fin (/ 10)) "linear" eos2 None None = Ok (Fin v) /\ u < v.
Proof.
  assert (R : forall x, 0 <= x <= 1 -> in_range 2 lev x) by (intros x Hx; unfold in_range, lev; simpl; lra).
  apply (increasing NaN "linear" S2 T2 S2 2 lev (fun _ => 0) lev id2 zero2 eos2 None None 0 (/ 4) (3 / 4) 0 (0 * (1 + 0 * 0)) (/ 4 * (1 + 0 * 0)) f2 zero2 1 (/ 10) 2 1 1
    profile2 interpolants2 (density2 _ _) (density2 _ _)); try (apply R; lra); try lra; [exact smooth2|exact spacing2|].
  intros i x _ _ _. rewrite gradient2. pose proof (Rle_0_sqr x) as Q. unfold Rsqr in Q. lra.
Qed.

(** ** Missing data at the bottom: a pressure below the data raises instead of giving NaN *)
Lemma padded_raises : exists S T P K ss ts ps p1, profile S T P K ss ts ps /\ ~ inside K ps p1 /\
  veronis NaN p1 S T P None (Fin 0) (Fin 1) (Fin 1) "linear" eos2 None None = Err ValueError.
Proof.
  exists [Fin 0; Fin 1; NaN], [Fin 0; Fin 0; NaN], [Fin 0; Fin 1; NaN], 2%nat, lev, (fun _ => 0), lev, (Fin 2).
  assert (B : forall ys Y, length Y = 3%nat -> (forall i, (i < 2)%nat -> nth_error Y i = Some (Fin (ys i))) ->
    block [Fin 0; Fin 1; NaN] Y 0 2 lev ys).
  { intros ys Y HL HY. constructor; cbn [length]; try lia.
    - intros [|[|i]] Hi; [reflexivity|reflexivity|lia].
    - intros i Hi. apply HY. lia.
    - intros [|i] _ Hi; [unfold lev; simpl; lra|lia].
    - intros _. left. reflexivity. }
  assert (BS : block [Fin 0; Fin 1; NaN] [Fin 0; Fin 1; NaN] 0 2 lev lev).
  { apply B; [reflexivity|]. intros [|[|i]] Hi; [reflexivity|reflexivity|lia]. }
  assert (BT : block [Fin 0; Fin 1; NaN] [Fin 0; Fin 0; NaN] 0 2 lev (fun _ => 0)).
  { apply B; [reflexivity|]. intros [|[|i]] Hi; [reflexivity|reflexivity|lia]. }
  split; [|split].
  - constructor; [exact BS|exact BT|lia|].
    intros [|[|[|i]]] v Hi E; try lia; [injection E as <-; left; reflexivity|destruct i; discriminate].
  - intros (r & E & H). injection E as <-. unfold in_range, lev in H. simpl in H. lra.
  - destruct (linear_rows _ _ _ _ _ _ BS NaN) as (C & EC & LC & RC). destruct (linear_rows _ _ _ _ _ _ BT NaN) as (C' & EC' & _ & RC').
    set (cS := lin_c lev lev) in *. set (cT := lin_c lev (fun _ => 0)) in *.
    unfold veronis. cbn [_process_eos eos2 bind fst snd].
    change (make_pp "linear" "1" "coeffs" true 1) with (Ok "linear_coeffs_1"%string). cbn [bind].
    change (ppc_named NaN "linear_coeffs_1") with (linear_coeffs_1 NaN). rewrite EC, EC'. cbn [bind].
    unfold _veronis. unfold pot_dens_1, ppval_1_two. rewrite LC.
    destruct (locate_inside _ _ _ _ _ _ BS 0 ltac:(lia) ltac:(unfold lev; simpl; lra)) as (i & -> & _ & Hi & _). cbn [bind].
    destruct i as [|i]; [|lia]. cbn [get nth_error bind].
    rewrite (get_ok _ _ _ (RC 0%nat ltac:(lia) ltac:(lia))), (get_ok _ _ _ (RC' 0%nat ltac:(lia) ltac:(lia))). cbn [bind fst snd].
    cbn [sub xrNum xr_sub]. rewrite !pval_fin. cbn [rho2 bind]. unfold rho2. cbn [bind].
    unfold _veronis_affine, _int_dlrpd_dz. cbn [get nth_error bind length Nat.sub add xrNum xr_add isnan xr_isnan ltb xr_ltb orb leb xr_leb].
    rewrite !Rltb_false by lra. cbn [orb]. rewrite Rleb_true by lra.
    unfold searchsorted. cbn [length bsearch Nat.ltb Nat.leb Nat.div Nat.divmod fst snd Nat.sub Nat.add nth ltb xrNum xr_ltb].
    repeat (rcase; try (exfalso; lra)). cbn [Nat.max Nat.sub].
    set (P3 := [Fin 0; Fin 1; NaN]) in *.
    assert (HI : _int_x_k (Fin 0) 0 (Fin 1) P3 C C' rho2_s_t = Ok (Fin (J lev cS cT 1 f2 zero2 0 0))).
    { apply (int_x_k_real P3 2 lev (fun i Hi => blk_X _ _ _ _ _ _ BS i (conj (Nat.le_0_l i) Hi))); try lia; try lra.
      - intros j Hj. apply RC; lia.
      - intros j Hj. apply RC'; lia.
      - intros j x Hj Hx. destruct j as [|j]; [|lia]. cbn. unfold rho2_s_t, f2, zero2. cbn. reflexivity.
      - unfold lev. simpl. lra. }
    rewrite HI. cbn [bind]. unfold for_range. cbn [Nat.sub seq for_each bind P3 get nth_error]. unfold P3 at 1. cbn [get nth_error bind].
    unfold _int_x_k, P3. cbn [get nth_error bind Nat.add sub xrNum xr_sub xr_add xr_opp]. unfold sdiv. cbn [eqb xrNum xr_eqb zero lit]. unfold zero.
    cbn [lit xrNum xr_eqb]. rewrite Rlit_0, Reqb_false by lra. reflexivity.
Qed.
