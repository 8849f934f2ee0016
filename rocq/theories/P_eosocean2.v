(** * The equations of state over the oceanographic range: what the code returns *)
From Coq Require Import ZArith Reals Lra Lia List.
From Verif Require Import Num XR Res M_eos_base M_jmd95 M_jmdfwg06 M_gsw S_eos P_eos P_jmd95 P_jmdfwg06 P_gsw P_gsw2 P_gsw3
  P_eosx P_eosocean.
Open Scope R_scope.

Lemma jm_ocean : forall dv : R -> R -> res R, dv = sdiv \/ dv = adiv -> forall s t p, ocean s t p ->
  (exists r, jmd95_rho dv s t p = Ok r /\ 0 < r) /\
  (exists rp, jmd95_rho_p dv s t p = Ok rp /\ 0 < rp) /\
  (0 < s -> exists rs rt, jmd95_rho_s_t dv s t p = Ok (rs, rt) /\ 0 < rs).
Proof.
  intros dv Hdv s t p H. destruct (jm_all dv Hdv s t p (jm_ocean_dom _ _ _ H)) as (H1 & (rp & H2 & H2') & H3).
  split; [|split].
  - eexists. split; [exact H1|]. apply jm_rho_pos. exact H.
  - exists rp. split; [exact H2|]. exact (jm_p_pos _ _ _ _ H H2').
  - intro Hs. destruct (H3 Hs) as (rs & rt & H4 & H5 & _). exists rs, rt. split; [exact H4|].
    exact (jm_s_pos _ _ _ _ H Hs H5).
Qed.

Lemma jf_ocean : forall dv : R -> R -> res R, dv = sdiv \/ dv = adiv -> forall s t p, ocean s t p ->
  (exists r, jmdfwg06_rho dv s t p = Ok r /\ 0 < r) /\
  (exists rp, jmdfwg06_rho_p dv s t p = Ok rp /\ 0 < rp) /\
  (0 < s -> exists rs rt, jmdfwg06_rho_s_t dv s t p = Ok (rs, rt) /\ 0 < rs).
Proof.
  intros dv Hdv s t p H. destruct (jf_all dv Hdv s t p (jf_ocean_dom _ _ _ H)) as (H1 & (rp & H2 & H2') & H3).
  split; [|split].
  - eexists. split; [exact H1|]. apply jf_rho_pos. exact H.
  - exists rp. split; [exact H2|]. exact (jf_p_pos _ _ _ _ H H2').
  - intro Hs. destruct (H3 Hs) as (rs & rt & H4 & H5 & _). exists rs, rt. split; [exact H4|].
    exact (jf_s_pos _ _ _ _ H Hs H5).
Qed.

Lemma teos_ocean : forall dv : R -> R -> res R, dv = sdiv \/ dv = adiv -> forall s t p, ocean s t p ->
  (exists v, gsw_specvol s t p = Ok v /\ 0 < v) /\
  (exists vp, gsw_specvol_p s t p = Ok vp /\ vp < 0) /\
  (exists vs vt, gsw_specvol_s_t dv s t p = Ok (vs, vt) /\ vs < 0).
Proof.
  intros dv Hdv s t p (Hs & Hd). destruct (teos_signs s t p ltac:(lra) Hd) as (H0 & H1 & H2).
  split; [|split].
  - eexists. split; [apply specvol_d|exact H0].
  - eexists. split; [apply p_d|exact H1].
  - do 2 eexists. split; [apply s_t_d; exact (division_ok dv Hdv)|exact H2].
Qed.

(** below zero salinity the function is constant in salinity, but the derivative returned is not zero *)
Lemma teos_clamped : forall dv : R -> R -> res R, dv = sdiv \/ dv = adiv ->
  forall s t p, s < 0 -> -3 <= t <= 40 -> 0 <= p <= 10000 ->
  diff_s teos_v s t p 0 /\
  exists vs vt, gsw_specvol_s_t dv s t p = Ok (vs, vt) /\ ~ diff_s teos_v s t p vs.
Proof.
  intros dv Hdv s t p Hs Ht Hp. destruct (teos_signs s t p ltac:(lra) (conj Ht Hp)) as (_ & _ & H2).
  split; [apply clamped; exact Hs|]. do 2 eexists.
  split; [apply s_t_d; exact (division_ok dv Hdv)|].
  intro Hc. pose proof (uniqueness_limite _ _ _ _ Hc (clamped s t p Hs)) as E. lra.
Qed.

Lemma teos_clamped_at : exists s t p vs vt,
  gsw_specvol_s_t sdiv s t p = Ok (vs, vt) /\ ~ diff_s teos_v s t p vs.
Proof.
  exists (-1), 0, 0. apply (teos_clamped sdiv (or_introl eq_refl)); lra.
Qed.

(** ** Monotonicity *)

Lemma increasing : forall (f f' : R -> R) a b, a < b ->
  (forall x, a <= x <= b -> derivable_pt_lim f x (f' x)) ->
  (forall x, a <= x <= b -> 0 < f' x) -> f a < f b.
Proof.
  intros f f' a b Hab Hf Hp. destruct (MVT_cor2 f f' a b Hab Hf) as (c & Hc & Hc').
  pose proof (Hp c ltac:(lra)). nra.
Qed.

(** a derivative that the code returns *)
Definition val (r : res R) : R := match r with Ok v => v | Err _ => 0 end.
Definition fst_val (r : res (R * R)) : R := match r with Ok v => fst v | Err _ => 0 end.

Lemma jm_mono : forall dv : R -> R -> res R, dv = sdiv \/ dv = adiv ->
  (forall s t p p' r r', ocean s t p -> ocean s t p' -> p < p' ->
     jmd95_rho dv s t p = Ok r -> jmd95_rho dv s t p' = Ok r' -> r < r') /\
  (forall s s' t p r r', ocean s t p -> ocean s' t p -> 0 < s < s' ->
     jmd95_rho dv s t p = Ok r -> jmd95_rho dv s' t p = Ok r' -> r < r').
Proof.
  intros dv Hdv. pose proof (fun s t p H => jm_all dv Hdv s t p (jm_ocean_dom s t p H)) as A.
  split.
  - intros s t p p' r r' H H' Hp E E'.
    assert (Hb : forall x, p <= x <= p' -> ocean s t x) by (unfold ocean in *; intros; lra).
    rewrite (proj1 (A _ _ _ H)) in E. rewrite (proj1 (A _ _ _ H')) in E'. injection E as <-. injection E' as <-.
    apply (increasing (fun p => jm_rho s t p) (fun x => val (jmd95_rho_p dv s t x)) p p' Hp).
    + intros x Hx. destruct (A _ _ _ (Hb x Hx)) as (_ & (rp & -> & Hd) & _). exact Hd.
    + intros x Hx. destruct (A _ _ _ (Hb x Hx)) as (_ & (rp & -> & Hd) & _). exact (jm_p_pos _ _ _ _ (Hb x Hx) Hd).
  - intros s s' t p r r' H H' Hs E E'.
    assert (Hb : forall x, s <= x <= s' -> ocean x t p) by (unfold ocean in *; intros; lra).
    rewrite (proj1 (A _ _ _ H)) in E. rewrite (proj1 (A _ _ _ H')) in E'. injection E as <-. injection E' as <-.
    apply (increasing (fun s => jm_rho s t p) (fun x => fst_val (jmd95_rho_s_t dv x t p)) s s' ltac:(lra)).
    + intros x Hx. destruct (A _ _ _ (Hb x Hx)) as (_ & _ & Hd).
      destruct (Hd ltac:(lra)) as (rs & rt & -> & Hd' & _). exact Hd'.
    + intros x Hx. destruct (A _ _ _ (Hb x Hx)) as (_ & _ & Hd).
      destruct (Hd ltac:(lra)) as (rs & rt & -> & Hd' & _). exact (jm_s_pos _ _ _ _ (Hb x Hx) ltac:(lra) Hd').
Qed.

Lemma jf_mono : forall dv : R -> R -> res R, dv = sdiv \/ dv = adiv ->
  (forall s t p p' r r', ocean s t p -> ocean s t p' -> p < p' ->
     jmdfwg06_rho dv s t p = Ok r -> jmdfwg06_rho dv s t p' = Ok r' -> r < r') /\
  (forall s s' t p r r', ocean s t p -> ocean s' t p -> 0 < s < s' ->
     jmdfwg06_rho dv s t p = Ok r -> jmdfwg06_rho dv s' t p = Ok r' -> r < r').
Proof.
  intros dv Hdv. pose proof (fun s t p H => jf_all dv Hdv s t p (jf_ocean_dom s t p H)) as A.
  split.
  - intros s t p p' r r' H H' Hp E E'.
    assert (Hb : forall x, p <= x <= p' -> ocean s t x) by (unfold ocean in *; intros; lra).
    rewrite (proj1 (A _ _ _ H)) in E. rewrite (proj1 (A _ _ _ H')) in E'. injection E as <-. injection E' as <-.
    apply (increasing (fun p => jf_rho s t p) (fun x => val (jmdfwg06_rho_p dv s t x)) p p' Hp).
    + intros x Hx. destruct (A _ _ _ (Hb x Hx)) as (_ & (rp & -> & Hd) & _). exact Hd.
    + intros x Hx. destruct (A _ _ _ (Hb x Hx)) as (_ & (rp & -> & Hd) & _). exact (jf_p_pos _ _ _ _ (Hb x Hx) Hd).
  - intros s s' t p r r' H H' Hs E E'.
    assert (Hb : forall x, s <= x <= s' -> ocean x t p) by (unfold ocean in *; intros; lra).
    rewrite (proj1 (A _ _ _ H)) in E. rewrite (proj1 (A _ _ _ H')) in E'. injection E as <-. injection E' as <-.
    apply (increasing (fun s => jf_rho s t p) (fun x => fst_val (jmdfwg06_rho_s_t dv x t p)) s s' ltac:(lra)).
    + intros x Hx. destruct (A _ _ _ (Hb x Hx)) as (_ & _ & Hd).
      destruct (Hd ltac:(lra)) as (rs & rt & -> & Hd' & _). exact Hd'.
    + intros x Hx. destruct (A _ _ _ (Hb x Hx)) as (_ & _ & Hd).
      destruct (Hd ltac:(lra)) as (rs & rt & -> & Hd' & _). exact (jf_s_pos _ _ _ _ (Hb x Hx) ltac:(lra) Hd').
Qed.

Lemma teos_mono :
  (forall s t p p' v v', ocean s t p -> ocean s t p' -> p < p' ->
     gsw_specvol s t p = Ok v -> gsw_specvol s t p' = Ok v' -> v' < v) /\
  (forall s s' t p v v', ocean s t p -> ocean s' t p -> 0 < s < s' ->
     gsw_specvol s t p = Ok v -> gsw_specvol s' t p = Ok v' -> v' < v).
Proof.
  split.
  - intros s t p p' v v' H H' Hp E E'.
    assert (Hb : forall x, p <= x <= p' -> ocean s t x) by (unfold ocean in *; intros; lra).
    rewrite specvol_d in E, E'. injection E as <-. injection E' as <-. apply Ropp_lt_cancel.
    apply (increasing (fun p => - teos_d 0 0 0 s t p) (fun x => - teos_d 0 0 1 s t x) p p' Hp).
    + intros x Hx. apply derivable_pt_lim_opp. apply teos_diff_p.
    + intros x Hx. destruct (Hb x Hx) as (Hs & Hd). destruct (teos_signs s t x ltac:(lra) Hd) as (_ & H1 & _). lra.
  - intros s s' t p v v' H H' Hs E E'.
    assert (Hb : forall x, s <= x <= s' -> ocean x t p) by (unfold ocean in *; intros; lra).
    rewrite specvol_d in E, E'. injection E as <-. injection E' as <-. apply Ropp_lt_cancel.
    apply (increasing (fun s => - teos_d 0 0 0 s t p) (fun x => - teos_d 1 0 0 x t p) s s' ltac:(lra)).
    + intros x Hx. apply derivable_pt_lim_opp. apply teos_diff_s; [lia|lra].
    + intros x Hx. destruct (Hb x Hx) as (Hs' & Hd). destruct (teos_signs x t p ltac:(lra) Hd) as (_ & _ & H1). lra.
Qed.
