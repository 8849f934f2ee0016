(** * The partial derivatives that the Veronis density uses, for the named equations of state in binary64 *)
From Coq Require Import String ZArith Reals Bool Lia Lra Psatz SpecFloat List.
From Flocq Require Import Raux.
From Verif Require Import Num XR SF Res Arr ArrLemmas NdLemmas M_eos_base M_jmd95 M_jmdfwg06 M_gsw M_eostools M_ntp S_eos S_float P_float P_fl P_floaterr P_eosfloat P_eosfloat2 P_eosfloat3
  P_eos P_gsw P_gsw2 P_gsw3 P_eosx P_eosocean P_eosocean2 S_domain S_named S_vert64 S_ntp S_surfaces S_entry64 S_ntp64 S_label64 P_named P_eosfloat4 P_eosfloat5 P_linear64 P_surf64 P_traj64 P_entry64 P_ntp64
  P_ntp64b P_label64.
Import ListNotations.
Open Scope R_scope.

(** the error is at most n / 10 ^ k, and the value at most m / 10 ^ j *)
Definition fine2 (a : ev) (n k m j : Z) : bool :=
  match a with Ev lo hi er => (er * 10 ^ k <=? n * UZ)%Z && (mag lo hi * 10 ^ j <=? m * UZ)%Z | Top => false end.
Lemma fine2_ok a (x : f64) v n k m j : (0 < 10 ^ k)%Z -> (0 < 10 ^ j)%Z -> fine2 a n k m j = true -> rel a x v ->
  S_float.within x v (IZR n / IZR (10 ^ k)) /\ Rabs v <= IZR m / IZR (10 ^ j).
Proof.
  destruct a as [|lo hi er]; [discriminate|]. cbn [fine2]. intros K J. rewrite andb_true_iff, !Z.leb_le. intros [H1 H2] (F & [V1 V2] & E).
  pose proof UR_pos as U. apply IZR_le in H1, H2. rewrite !mult_IZR, <- UR_UZ in H1, H2. apply IZR_lt in K, J. split; [split; [exact F|]|].
  - apply Rmult_le_reg_r with UR; [exact U|]. apply Rmult_le_reg_r with (IZR (10 ^ k)); [exact K|].
    replace (IZR n / IZR (10 ^ k) * UR * IZR (10 ^ k)) with (IZR n * UR) by (field; lra).
    eapply Rle_trans; [|exact H1]. apply Rmult_le_compat_r; [lra|exact E].
  - assert (M1 : IZR hi <= IZR (mag lo hi)) by (apply IZR_le; unfold mag; lia).
    assert (M2 : - IZR (mag lo hi) <= IZR lo) by (rewrite <- opp_IZR; apply IZR_le; unfold mag; lia).
    assert (Q : Rabs (v * UR) <= IZR (mag lo hi)) by (apply Rabs_le; lra). rewrite Rabs_mult, (Rabs_pos_eq UR) in Q by lra.
    apply Rmult_le_reg_r with UR; [exact U|]. apply Rmult_le_reg_r with (IZR (10 ^ j)); [exact J|].
    replace (IZR m / IZR (10 ^ j) * UR * IZR (10 ^ j)) with (IZR m * UR) by (field; lra).
    eapply Rle_trans; [|exact H2]. apply Rmult_le_compat_r; [lra|exact Q].
Qed.

Lemma ck_jm_s : fine2 (fst (jm_st 13)) 2 13 224 2 = true. Proof. vm_compute. reflexivity. Qed.
Lemma ck_jm_t : fine2 (snd (jm_st 13)) 2 13 224 2 = true. Proof. vm_compute. reflexivity. Qed.
Lemma ck_jf_s : fine2 (fst (jf_st 13)) 32 14 944 2 = true. Proof. vm_compute. reflexivity. Qed.
Lemma ck_jf_t : fine2 (snd (jf_st 13)) 32 14 944 2 = true. Proof. vm_compute. reflexivity. Qed.
Lemma ck_gs_s : fine2 (fst (gs_st 13)) 15 19 23 6 = true. Proof. vm_compute. reflexivity. Qed.
Lemma ck_gs_t : fine2 (snd (gs_st 13)) 15 19 23 6 = true. Proof. vm_compute. reflexivity. Qed.

Lemma err13 : (err 13 <= 2 * err 13)%Z. Proof. vm_compute. discriminate. Qed.

Lemma st64_of s0 pm f vs vt bs es et n k m j : pm <= 10000 -> (0 < 10 ^ k)%Z -> (0 < 10 ^ j)%Z ->
  s_t_mid 13 (sea s0 pm) f vs vt bs es et ->
  (forall (s : f64) v, s0 <= v <= 42 -> 0 < v -> S_float.within s v (dec 1 (-13)) -> bs s v) ->
  fine2 es n k m j = true -> fine2 et n k m j = true ->
  st64 s0 pm f vs vt (IZR n / IZR (10 ^ k)) (IZR m / IZR (10 ^ j)).
Proof.
  intros Pm K J Hf Hb Cs Ct s t p a b Ha A0 Hbb Fp Hp Ws Wt.
  destruct (Hf s t p a b (fval p)) as (y & z & E & Rs & Rt).
  - exact Ha.
  - exact A0.
  - exact Hbb.
  - exact Hp.
  - apply Hb; assumption.
  - apply (rel_rebox _ _ _ _ _ _ _ _ (in_off_t 13 t b Hbb Wt)); [|exact err13].
    rewrite !upU_R. apply range_UR. simpl. lra.
  - split; [exact Fp|]. rewrite Rminus_diag_eq, Rabs_R0 by reflexivity. unfold dec. simpl. lra.
  - destruct (fine2_ok _ _ _ _ _ _ _ K J Cs Rs) as [W1 B1]. destruct (fine2_ok _ _ _ _ _ _ _ K J Ct Rt) as [W2 B2].
    exists y, z. auto.
Qed.

Lemma bs_mid (s : f64) v : / 1000 <= v <= 42 -> 0 < v -> S_float.within s v (dec 1 (-13)) -> rel (mid_s 13) s v.
Proof.
  intros H _ W. apply (rel_rebox _ _ _ _ _ _ _ _ (in_off_s 13 s v H W)); [|exact err13].
  pose proof (range_UR (/ 1000) 42 v H). pose proof milli_ok. rewrite upU_R. lra.
Qed.
Lemma bs_mid0 (s : f64) v : 0 <= v <= 42 -> 0 < v -> S_float.within s v (dec 1 (-13)) -> rel (mid_s0 13) (npmaximum s (lit 0 0)) v.
Proof.
  intros H H0 W. assert (Q := in_off_s0 13 s v H W). rewrite Rmax_left in Q by lra.
  apply (rel_rebox _ _ _ _ _ _ _ _ Q); [|exact err13]. pose proof (range_UR 0 42 v H). rewrite !upU_R. lra.
Qed.

(** the equation of state and its partial derivatives, as the Veronis density has them *)
Lemma entry_st name v s0 d B c r grav rho_c zp pm vs vt : named_eos name v -> limits64 name s0 (dec 1 (-13)) d B -> label64 name c r -> coordinate64 grav rho_c zp pm ->
  partials (seas zp) (at_depth zp v) vs vt ->
  exists g er Br, (exists x, _process_eos adiv (AStr name) grav rho_c true = Ok (x, Some (F2 g)))
    /\ (forall f, _process_eos sdiv (AStr name) grav rho_c false = Ok (F1 f, None) -> exists x, _process_eos sdiv (AStr name) grav rho_c true = Ok (F1 f, x))
    /\ st64 s0 pm g vs vt er Br /\ 0 <= er <= / 1000 * Br /\ powerRZ 2 (-40) <= Br <= powerRZ 2 10
    /\ 202 / 100 * er <= c /\ 21 / 10 * (Br * u64) <= r.
Proof.
  intros Hn HL Hl Hco Hp.
  destruct Hn; inversion HL; subst; clear HL; inversion Hl; subst; clear Hl.
  - destruct (mid_coord 13 grav rho_c zp pm 0 _ teos_v vs vt _ _ _ Hco (fun vs0 vt0 H => gs_st64 13 adiv vs0 vt0 (or_introl eq_refl) (or_intror eq_refl) H) Hp) as [Pm M].
    exists (with_depth grav rho_c (gsw_specvol_s_t adiv)), (IZR 15 / IZR (10 ^ 19)), (IZR 23 / IZR (10 ^ 6)). split; [destruct grav, rho_c; eexists; reflexivity|].
    split; [intros f E; destruct grav, rho_c; injection E as <-; eexists; reflexivity|]. split; [exact (st64_of _ _ _ _ _ _ _ _ 15 19 23 6 Pm eq_refl eq_refl M bs_mid0 ck_gs_s ck_gs_t)|].
    unfold dec, u64. simpl. lra.
  - destruct (mid_coord 13 grav rho_c zp pm (/ 1000) _ jm_rho vs vt _ _ _ Hco (fun vs0 vt0 H => jm_st64 13 adiv vs0 vt0 (or_introl eq_refl) (or_intror eq_refl) H) Hp) as [Pm M].
    exists (with_depth grav rho_c (jmd95_rho_s_t adiv)), (IZR 2 / IZR (10 ^ 13)), (IZR 224 / IZR (10 ^ 2)). split; [destruct grav, rho_c; eexists; reflexivity|].
    split; [intros f E; destruct grav, rho_c; injection E as <-; eexists; reflexivity|]. split; [exact (st64_of _ _ _ _ _ _ _ _ 2 13 224 2 Pm eq_refl eq_refl M bs_mid ck_jm_s ck_jm_t)|].
    unfold dec, u64. simpl. lra.
  - destruct (mid_coord 13 grav rho_c zp pm (/ 1000) _ jf_rho vs vt _ _ _ Hco (fun vs0 vt0 H => jf_st64 13 adiv vs0 vt0 (or_introl eq_refl) (or_intror eq_refl) H) Hp) as [Pm M].
    exists (with_depth grav rho_c (jmdfwg06_rho_s_t adiv)), (IZR 32 / IZR (10 ^ 14)), (IZR 944 / IZR (10 ^ 2)). split; [destruct grav, rho_c; eexists; reflexivity|].
    split; [intros f E; destruct grav, rho_c; injection E as <-; eexists; reflexivity|]. split; [exact (st64_of _ _ _ _ _ _ _ _ 32 14 944 2 Pm eq_refl eq_refl M bs_mid ck_jf_s ck_jf_t)|].
    unfold dec, u64. simpl. lra.
Qed.
