(** * The wetting searches in binary64 *)
From Coq Require Import String ZArith Bool Reals Lra Lia List SpecFloat.
From Flocq Require Import Core IEEE754.BinarySingleNaN.
From Verif Require Import Num XR SF Res Arr ArrLemmas XRlemmas M_fzero S_fzero S_fzero64 M_ppinterp S_lib S_eos
  S_float S_interp S_domain S_traj M_traj M_bfs S_graph S_wet S_vertsolve S_vert64 S_ntp64 P_float P_fl P_holds P_ppinterp P_traj P_vertsolve P_domain
  P_bfs P_wet P_perim P_wet_exact P_linear64 P_vert64 P_surf64 P_traj64 P_entry64 P_sum64 P_ntpnan64 S_omega64 P_lost64.
Import ListNotations.
Local Open Scope R_scope.

#[local] Existing Instance P_float.prec_pos.
#[local] Existing Instance P_float.prec_max.

(** ** counting *)
Lemma of_Z_exact z : (0 <= z <= 2 ^ 53)%Z -> finite64 (sf_of_Z z) /\ fval (sf_of_Z z) = IZR z.
Proof.
  intros H. unfold sf_of_Z. rewrite bn_equiv.
  generalize (binary_normalize_correct 53 1024 _ _ mode_NE z 0 false). cbv zeta.
  assert (E : F2R (Float radix2 z 0) = IZR z) by (unfold F2R; simpl; ring).
  assert (G : rnd (IZR z) = IZR z).
  { apply round_generic; [apply valid_rnd_round_mode|]. apply generic_format_FLT. destruct (Z.eq_dec z (2 ^ 53)) as [->|N].
    - apply (FLT_spec _ _ _ _ (Float radix2 1 53)); [unfold F2R; cbn [Fnum Fexp bpow]; change (IZR (Z.pow_pos radix2 53)) with (IZR (2 ^ 53)); ring|vm_compute; reflexivity|vm_compute; discriminate].
    - apply (FLT_spec _ _ _ _ (Float radix2 z 0)); [rewrite E; reflexivity|cbn [Fnum]; rewrite Z.abs_eq by lia; change (Zpower radix2 53)%Z with (2 ^ 53)%Z; lia|vm_compute; discriminate]. }
  rewrite E. rewrite Rlt_bool_true.
  - intros (A & B & _). destruct (B_finite64 _ B) as [F V]. split; [exact F|]. rewrite V. transitivity (rnd (IZR z)); [exact A|exact G].
  - rewrite G. rewrite Rabs_pos_eq by (apply IZR_le; lia). apply Rle_lt_trans with (bpow radix2 53).
    + change (bpow radix2 53) with (IZR (2 ^ 53)). apply IZR_le. lia.
    + apply bpow_lt. lia.
Qed.
Lemma of_nat_exact n : INR n <= powerRZ 2 40 -> finite64 (of_nat n : f64) /\ fval (of_nat n : f64) = INR n.
Proof.
  intros H. assert (E : (of_nat n : f64) = sf_of_Z (Z.of_nat n)).
  { unfold of_nat. cbn [lit sfNum]. unfold sf_lit. change (0 <=? 0)%Z with true. cbv iota. f_equal. change (10 ^ 0)%Z with 1%Z. lia. }
  rewrite E, INR_IZR_INZ. apply of_Z_exact. split; [lia|]. apply le_IZR. rewrite <- INR_IZR_INZ.
  apply Rle_trans with (powerRZ 2 40); [exact H|]. simpl. lra.
Qed.

(** ** means *)
Lemma mean_ok (qs : list f64) lo hi : qs <> [] -> INR (length qs) <= powerRZ 2 32 -> powerRZ 2 (-900) <= lo -> hi <= 10000 ->
  (forall q, In q qs -> finite64 q /\ lo <= fval q <= hi) ->
  exists p : f64, sdiv (fold_left add qs (lit 0 0)) (of_nat (length qs)) = Ok p /\ mean64 qs p
    /\ lo <= Rsum (map fval qs) / INR (length qs) <= hi.
Proof.
  intros Hne Hn Hlo Hhi Hq. set (n := length qs) in *. pose proof (pow2_pos (-900)) as P9.
  assert (E32 : powerRZ 2 32 = 4294967296) by (simpl; lra).
  assert (N1 : 1 <= INR n). { change 1 with (INR 1). apply le_INR. unfold n. destruct qs; [congruence|simpl; lia]. }
  assert (N40 : INR n <= powerRZ 2 40) by (eapply Rle_trans; [exact Hn|]; apply pow2_le; lia).
  assert (HF : Forall nonneg64 qs). { apply Forall_forall. intros q Iq. destruct (Hq q Iq) as [F V]. split; [exact F|lra]. }
  assert (Sb : INR n * lo <= Rsum (map fval qs) <= INR n * hi).
  { unfold n. clear - Hq. induction qs as [|q qs IH]; [simpl; lra|]. cbn [map length]. rewrite S_INR. unfold Rsum. cbn [fold_right]. fold (Rsum (map fval qs)).
    destruct (Hq q (or_introl eq_refl)) as [_ V]. assert (H := IH (fun x Hx => Hq x (or_intror Hx))). lra. }
  set (S := Rsum (map fval qs)) in *.
  assert (Mb : lo <= S / INR n <= hi).
  { split; apply (Rmult_le_reg_r (INR n)); try lra; unfold Rdiv; rewrite Rmult_assoc, Rinv_l by lra; lra. }
  assert (SB : S <= powerRZ 2 900).
  { apply Rle_trans with (INR n * 10000); [apply Rle_trans with (INR n * hi); [apply Sb|apply Rmult_le_compat_l; lra]|].
    apply Rle_trans with (powerRZ 2 100); [|apply pow2_le; lia]. apply Rle_trans with (4294967296 * 10000); [apply Rmult_le_compat_r; lra|]. simpl. lra. }
  destruct (summed_ok qs (fsum qs) (fsum_summed qs) HF N40 SB) as (Fx & Hx & [A1 A2] & _).
  set (x := fsum qs) in *. change (fold_left add qs (lit 0 0)) with x. fold S in A1, A2. fold n in A1, A2.
  destruct (of_nat_exact n N40) as [Fn Vn].
  assert (E0 : sdiv x (of_nat n) = Ok (div x (of_nat n : f64))).
  { unfold sdiv. replace (eqb (of_nat n : f64) zero) with false; [reflexivity|]. symmetry.
    change (eqb (of_nat n : f64) zero) with (SFeqb (of_nat n : f64) (S754_zero false)). apply sf_eqb_zero; [exact Fn|rewrite Vn; lra]. }
  exists (div x (of_nat n : f64)). split; [exact E0|]. clear E0.
  pose proof eta64_pos as Et. assert (U : u64 = powerRZ 2 (-53)) by (unfold u64; simpl; lra). assert (U' : u64 = / 9007199254740992) by reflexivity.
  assert (Eta : eta64 * 1000 <= u64 * lo).
  { apply Rle_trans with (u64 * powerRZ 2 (-900)); [|apply Rmult_le_compat_l; lra]. rewrite U, pow2_mul. unfold eta64.
    apply Rle_trans with (powerRZ 2 (-1075) * powerRZ 2 10); [apply Rmult_le_compat_l; [left; apply pow2_pos|simpl; lra]|]. rewrite pow2_mul. apply pow2_le. lia. }
  assert (IN : 0 < / INR n) by (apply Rinv_0_lt_compat; lra).
  set (m := S / INR n) in *.
  assert (Q1 : m * (1 - 2 * INR n * u64) - 2 * eta64 <= fval x / INR n <= m * (1 + 2 * INR n * u64) + 2 * eta64).
  { unfold m, Rdiv. assert (X1 : (S * (1 - 2 * INR n * u64) - 2 * INR n * eta64) * / INR n <= fval x * / INR n) by (apply Rmult_le_compat_r; lra).
    assert (X2 : fval x * / INR n <= (S * (1 + 2 * INR n * u64) + 2 * INR n * eta64) * / INR n) by (apply Rmult_le_compat_r; lra).
    replace ((S * (1 - 2 * INR n * u64) - 2 * INR n * eta64) * / INR n) with (S * / INR n * (1 - 2 * INR n * u64) - 2 * eta64) in X1 by (field; lra).
    replace ((S * (1 + 2 * INR n * u64) + 2 * INR n * eta64) * / INR n) with (S * / INR n * (1 + 2 * INR n * u64) + 2 * eta64) in X2 by (field; lra). lra. }
  assert (Ku : 0 <= 2 * INR n * u64 <= / 1000000) by (split; [apply Rmult_le_pos; lra|rewrite U'; lra]).
  assert (M0 : 0 < m) by lra. assert (lo <= m) by lra.
  assert (Mu : u64 * lo <= u64 * m) by (apply Rmult_le_compat_l; lra).
  assert (mk : 0 <= m * (2 * INR n * u64) <= / 1000000 * m).
  { split; [apply Rmult_le_pos; lra|]. rewrite Rmult_comm. apply Rmult_le_compat_r; lra. }
  assert (um : 0 <= u64 * m <= / 1000 * m) by (split; [apply Rmult_le_pos; lra|apply Rmult_le_compat_r; lra]).
  assert (Q0 : 0 <= fval x / INR n) by (apply Rmult_le_pos; lra).
  assert (Q2 : fval x / INR n <= 20000). { lra. }
  assert (B2 : 20000 <= big64). { apply Rle_trans with (powerRZ 2 20); [simpl; lra|]. apply pow2_le. lia. }
  destruct (div_rounds x (of_nat n : f64) Fx Fn ltac:(rewrite Vn; lra)) as (Fp & Hp & [P1 P2] & _).
  { rewrite Vn. lra. }
  rewrite Vn in P1, P2. set (y := fval x / INR n) in *. set (p := div x (of_nat n : f64)) in *. clearbody y p.
  split; [|exact Mb]. split; [exact Fp|]. change (length qs) with n. fold S. fold m. rewrite <- U.
  assert (yu : y * u64 <= m * u64 * (11 / 10)).
  { replace (m * u64 * (11 / 10)) with ((m * (11 / 10)) * u64) by ring. apply Rmult_le_compat_r; lra. }
  apply Rabs_le. lra.
Qed.

Lemma forall2_len {A B} (P : A -> B -> Prop) l l' : Forall2 P l l' -> length l = length l'.
Proof. intros H. induction H; [reflexivity|]. cbn [length]. f_equal. assumption. Qed.

Section Search.
  Variables (eos : f64 -> f64 -> f64 -> res f64) (rho : R -> R -> R -> R) (s0 pm e d' B d : R).
  Hypothesis Her : eos_room eos rho s0 pm e d' B d.
  Hypothesis He0 : 0 <= e.
  Variable ppc_fn : list f64 -> list f64 -> res (list (list f64)).
  Variable rel : nat -> (nat -> R) -> (nat -> R) -> (R -> R) -> Prop.
  Hypothesis Hppc : interpolator64 ppc_fn rel (powerRZ 2 (-30)) 10000 42 e.
  Hypothesis Hkeep : keeps ppc_fn.
  Variable tol : f64.
  Hypothesis Ftol : finite64 tol.
  Hypothesis Htol : tolerance_ok (fval tol).
  Variables (casts : list column64) (casts' : list column) (fuel : nat).
  Hypothesis Hh : Forall2 holds_column casts casts'.
  Hypothesis Hcols : Forall (column_ok64 s0 pm fuel (fval tol)) casts'.
  Let Hpm := er_pm _ _ _ _ _ _ _ _ Her.
  Let Hs0 := er_s0 _ _ _ _ _ _ _ _ Her.

  Lemma cast_of n c : nth_error casts n = Some c -> exists c', nth_error casts' n = Some c' /\ holds_column c c' /\ column_ok64 s0 pm fuel (fval tol) c'.
  Proof.
    clear - Hh Hcols. revert n. generalize Hcols. induction Hh as [|a a' l l' H1 H2 IH]; intros Hc n Hn; [destruct n; discriminate|].
    inversion Hc as [|? ? C1 C2]; subst. destruct n as [|n]; cbn [nth_error] in *.
    - injection Hn as <-. exists a'. auto.
    - exact (IH H2 C2 C2 n Hn).
  Qed.
  Lemma casts_length : length casts = length casts'.
  Proof. exact (forall2_len _ _ _ Hh). Qed.

  Lemma len64 Sc Tc Pc : In (Sc, Tc, Pc) casts -> (length Sc <= length Pc)%nat.
  Proof.
    intros H. apply In_nth_error in H. destruct H as [n H]. destruct (cast_of n _ H) as ([[S' T'] P'] & _ & (HS & _ & HP) & (Ha & _)).
    apply (any_cast_len (S', T', P')) in Ha. rewrite (holds_length _ _ HS), (holds_length _ _ HP). exact Ha.
  Qed.

  (** a bottle with known water *)
  Definition water64 (b : bottle64) (vs vt : R) : Prop :=
    exists s t p, b = (s, t, p) /\ finite64 p /\ dS (sea s0 pm) vs /\ dT (sea s0 pm) vt /\ dP (sea s0 pm) (fval p)
      /\ S_float.within s vs e /\ S_float.within t vt e.
  Definition okb64 (b : bottle64) : Prop := lost pm b \/ exists vs vt, water64 b vs vt.

  Lemma sampled_water n c' b vs vt : nth_error casts' n = Some c' -> sampled rel e c' b vs vt -> water64 b vs vt.
  Proof.
    intros Hn Hs. rewrite Forall_forall in Hcols. destruct (Hcols _ (nth_error_In _ _ Hn)) as (_ & Hin & _).
    exact (sampled_in s0 pm e rel c' b vs vt Hin Hs).
  Qed.

  Lemma link_water b vs vt n Sc Tc Pc c' : water64 b vs vt -> nth_error casts n = Some (Sc, Tc, Pc) -> nth_error casts' n = Some c' ->
    exists r, (let '(s, t, p) := b in ntp_bottle_to_cast_pub eos ppc_fn fuel s t p Sc Tc Pc tol = Ok r)
      /\ surface_point64 rel (neutral_of rho vs vt (fval (snd b))) (fval tol) e (2 * d') c' r.
  Proof.
    intros (s & t & p & -> & Fp & Ds & Dt & Dp & Ws & Wt) Hn Hn'. destruct (cast_of n _ Hn) as (c1 & Hc1 & Hc & (H1 & H2 & H3 & H4 & H5)).
    rewrite Hn' in Hc1. injection Hc1 as <-. assert (HB := er_B _ _ _ _ _ _ _ _ Her).
    destruct (link_64 eos rho s0 pm e (dec 3 (-12)) d B d' Hpm (er_eos _ _ _ _ _ _ _ _ Her) (Rle_refl _) (er_d0 _ _ _ _ _ _ _ _ Her) (er_d1 _ _ _ _ _ _ _ _ Her)
      ltac:(lra) (er_d3 _ _ _ _ _ _ _ _ Her) (er_cont _ _ _ _ _ _ _ _ Her) ppc_fn rel Hs0 Hppc tol Ftol Htol s t p vs vt (Sc, Tc, Pc) c'
      Ws Ds Wt Dt Fp Dp Hc H1 H2 H3 (starts_guess p _ c' Hc H4 Fp)) as (r & Er & Hr).
    exists r. split; [exact (Er fuel H5)|exact Hr].
  Qed.

  Lemma link_ok b n Sc Tc Pc c' : okb64 b -> nth_error casts n = Some (Sc, Tc, Pc) -> nth_error casts' n = Some c' ->
    exists r, (let '(s, t, p) := b in ntp_bottle_to_cast_pub eos ppc_fn fuel s t p Sc Tc Pc tol = Ok r)
      /\ (r = (nan, nan, nan) \/ (~ lost pm b /\ exists vs vt, sampled rel e c' r vs vt)).
  Proof.
    intros [(p & -> & Fp & Hp)|(vs & vt & Hw)] Hn Hn'.
    - destruct (cast_of n _ Hn) as (c1 & Hc1 & Hc & (H1 & H2 & H3 & H4 & H5 & H6)). rewrite Hn' in Hc1. injection Hc1 as <-.
      exists (nan, nan, nan). split; [|left; reflexivity].
      exact (lost_link eos rho s0 pm e d' B d Her ppc_fn rel Hppc tol p Sc Tc Pc c' fuel Fp Hp Hc H1 H2 H3 (starts_guess p _ c' Hc H4 Fp) H5).
    - destruct (link_water b vs vt n Sc Tc Pc c' Hw Hn Hn') as (r & Er & Hr). exists r. split; [exact Er|].
      destruct (surface_cases _ _ _ _ _ _ _ Hr) as [E|Hs]; [left; exact E|right]. split; [|exact Hs].
      destruct Hw as (s & t & p & -> & _ & _ & _ & _ & [Fs _] & _). intros (q & E & _). injection E as -> _ _. exact Fs.
  Qed.

  (** ** bfs_conncomp1_wet *)
  Variables (p_ml : list f64) (N : nat) (indptr indices : list nat) (root : nat) (stp0 : list bottle64).
  Hypothesis Hcsr : csr N indptr indices.
  Hypothesis Hcasts : length casts = N.
  Hypothesis Hml : length p_ml = N.
  Hypothesis Hstp : surface64 rel e pm casts' stp0.

  Lemma stp_length : length stp0 = N.
  Proof. destruct Hstp as [L _]. rewrite L, <- Hcasts. symmetry. apply casts_length. Qed.

  Lemma stp_okb n b : nth_error stp0 n = Some b -> isfinite (snd b) = true -> okb64 b.
  Proof.
    intros Hn Hf. destruct Hstp as [L H]. destruct (nth_error casts' n) as [c|] eqn:Ec; [|apply nth_error_None in Ec; apply nth_error_lt in Hn; lia].
    destruct (H _ _ _ Hn Ec) as [E|[E|(vs & vt & E)]]; [rewrite E in Hf; discriminate|left; exact E|right].
    exists vs, vt. exact (sampled_water n c b vs vt Ec E).
  Qed.

  Lemma ntp_to_ok b n r : okb64 b -> ntp_to eos ppc_fn fuel casts tol b n r ->
    exists r' c', r = Ok r' /\ nth_error casts' n = Some c' /\ (r' = (nan, nan, nan) \/ exists vs vt, sampled rel e c' r' vs vt).
  Proof.
    intros Hb (Sc & Tc & Pc & Hn & Hr). destruct (cast_of n _ Hn) as (c' & Hc' & _).
    destruct (link_ok b n Sc Tc Pc c' Hb Hn Hc') as (r' & Er & Hr'). exists r', c'. destruct b as [[s t] p]. rewrite Er in Hr.
    split; [symmetry; exact Hr|]. split; [exact Hc'|]. destruct Hr' as [H|[_ H]]; [left|right]; exact H.
  Qed.

  Lemma wet_closed64 : closed eos ppc_fn fuel casts tol okb64 stp0.
  Proof.
    split.
    - intros n s t p Hn Hf. exact (stp_okb n (s, t, p) Hn Hf).
    - intros b n s t p Hb Hl Hf. destruct (ntp_to_ok b n _ Hb Hl) as (r' & c' & E & Hc & [->|(vs & vt & H)]).
      + assert (p = nan) by congruence. subst p. discriminate.
      + assert (r' = (s, t, p)) by congruence. subst r'. right. exists vs, vt. exact (sampled_water n c' _ vs vt Hc H).
  Qed.

  Lemma wet64 junk lf : (root < N)%nat -> (N <= length junk)%nat -> (N < lf)%nat ->
    exists qu new stp, bfs_conncomp1_wet eos ppc_fn fuel casts tol p_ml lf junk indptr indices root stp0 = Ok (qu, new, stp)
      /\ surface64 rel e pm casts' stp
      /\ NoDup qu
      /\ (forall n, wet_at stp0 n \/ ~ In n qu -> nth_error stp n = nth_error stp0 n)
      /\ (forall n, In n qu -> ~ wet_at stp0 n -> exists m c c' b vs vt r, In m qu /\ adj indptr indices m n
            /\ nth_error casts' m = Some c /\ nth_error casts' n = Some c' /\ nth_error stp m = Some b /\ nth_error stp n = Some r
            /\ sampled rel e c b vs vt /\ surface_point64 rel (neutral_of rho vs vt (fval (snd b))) (fval tol) e (2 * d') c' r
            /\ exists vs' vt', sampled rel e c' r vs' vt').
  Proof.
    intros Hr Hj Hlf.
    pose proof (bfs_wet_correct eos ppc_fn fuel casts tol p_ml N indptr indices root stp0 Hcsr Hcasts Hml stp_length
      len64 eq_refl okb64 wet_closed64 junk Hr Hj lf Hlf) as H.
    destruct (bfs_conncomp1_wet _ _ _ _ _ _ _ _ _ _ _ _) as [[[qu new] stp]|er].
    2:{ destruct H as (s & t & p & n & _ & Hb & Hl). destruct (ntp_to_ok _ _ _ Hb Hl) as (r' & c' & E & _). discriminate. }
    cbn [okor] in H. destruct H as (H1 & H2 & H3 & H4 & H5 & H6 & H7 & H8 & H9). exists qu, new, stp. split; [reflexivity|].
    pose proof stp_length as Ls. pose proof casts_length as Lc. destruct Hstp as [L0 HS].
    (* each queued node, in order *)
    assert (Hq : forall i n, nth_error qu i = Some n -> forall b, nth_error stp n = Some b -> isfinite (snd b) = true ->
        forall c, nth_error casts' n = Some c -> lost pm b \/ exists vs vt, sampled rel e c b vs vt).
    { intros i. induction i as [i IH] using lt_wf_ind. intros n Hi b Hb Hf c Hc.
      assert (Hold : wet_at stp0 n -> lost pm b \/ exists vs vt, sampled rel e c b vs vt).
      { intros Hw. rewrite (H6 n (or_introl Hw)) in Hb. destruct (HS _ _ _ Hb Hc) as [E|H]; [rewrite E in Hf; discriminate|exact H]. }
      destruct i as [|i].
      - apply Hold. destruct (in_dec Nat.eq_dec n [root]) as [Hin|Hin].
        + destruct Hin as [<-|[]]. destruct (nth_error stp0 root) as [[[s t] p]|] eqn:E; [|apply nth_error_None in E; lia].
          destruct (isfinite p) eqn:Ep; [exists s, t, p; auto|]. exfalso.
          assert (Hnw : ~ wet_at stp0 root) by (intros (s' & t' & p' & E' & F'); congruence). rewrite (H4 Hnw) in Hi. discriminate.
        + exfalso. destruct (nth_error stp0 root) as [[[s t] p]|] eqn:E; [|apply nth_error_None in E; lia].
          destruct (isfinite p) eqn:Ep.
          * assert (Hw : wet_at stp0 root) by (exists s, t, p; auto). rewrite (H3 Hw) in Hi. apply Hin. left. congruence.
          * assert (Hnw : ~ wet_at stp0 root) by (intros (s' & t' & p' & E' & F'); congruence). rewrite (H4 Hnw) in Hi. discriminate.
      - destruct (H7 i n Hi) as (j & m & Hij & Hj' & HE & [Hw|(b' & r & Hb' & Hr' & Hl & Ha)]); [exact (Hold Hw)|].
        rewrite Hb in Hr'. injection Hr' as <-. right.
        assert (Hb'ok : okb64 b').
        { destruct (nth_error casts' m) as [cm|] eqn:Ecm; [|apply nth_error_None in Ecm; apply nth_error_lt in Hb'; lia].
          destruct Hl as (Sc & Tc & Pc & Hn & Hl). destruct b' as [[s' t'] p'].
          destruct (isfinite p') eqn:Ep'.
          - destruct (IH j ltac:(lia) m Hj' _ Hb' Ep' cm Ecm) as [H|(vs & vt & H)]; [left; exact H|right; exists vs, vt; exact (sampled_water m cm _ vs vt Ecm H)].
          - exfalso. (* queued nodes have finite pressure *)
            assert (W : wet_at stp m).
            { clear - H3 H4 H6 H7 Hj' Hb' Ls Hr. destruct j as [|j].
              - destruct (nth_error stp0 root) as [[[s t] p]|] eqn:E; [|apply nth_error_None in E; lia].
                destruct (isfinite p) eqn:Ep.
                + assert (Hw : wet_at stp0 root) by (exists s, t, p; auto). rewrite (H3 Hw) in Hj'. injection Hj' as <-.
                  exists s, t, p. rewrite (H6 root (or_introl Hw)). auto.
                + assert (Hnw : ~ wet_at stp0 root) by (intros (s2 & t2 & p2 & E' & F'); congruence). rewrite (H4 Hnw) in Hj'. discriminate.
              - destruct (H7 j m Hj') as (_ & _ & _ & _ & _ & [Hw|(_ & [[s t] p] & _ & Hr' & _ & Ha)]).
                + destruct Hw as (s & t & p & E & F). exists s, t, p. rewrite H6; [auto|]. left. exists s, t, p. auto.
                + destruct Ha as (ml & _ & F & _). exists s, t, p. auto. }
            destruct W as (s & t & p & E & F). congruence. }
        destruct (ntp_to_ok b' n _ Hb'ok Hl) as (r' & c' & E & Hc' & [->|Hs]).
        + assert (b = (nan, nan, nan)) by congruence. subst b. discriminate.
        + assert (r' = b) by congruence. subst r'. assert (c' = c) by congruence. subst c'. exact Hs. }
    assert (Hwet : forall i m, nth_error qu i = Some m -> wet_at stp m).
    { clear - H3 H4 H6 H7 Ls Hr. intros j m Hj'. destruct j as [|j].
      - destruct (nth_error stp0 root) as [[[s t] p]|] eqn:E; [|apply nth_error_None in E; lia].
        destruct (isfinite p) eqn:Ep.
        + assert (Hw : wet_at stp0 root) by (exists s, t, p; auto). rewrite (H3 Hw) in Hj'. injection Hj' as <-.
          exists s, t, p. rewrite (H6 root (or_introl Hw)). auto.
        + assert (Hnw : ~ wet_at stp0 root) by (intros (s2 & t2 & p2 & E' & F'); congruence). rewrite (H4 Hnw) in Hj'. discriminate.
      - destruct (H7 j m Hj') as (_ & _ & _ & _ & _ & [Hw|(_ & [[s t] p] & _ & Hr' & _ & Ha)]).
        + destruct Hw as (s & t & p & E & F). exists s, t, p. rewrite H6; [auto|]. left. exists s, t, p. auto.
        + destruct Ha as (ml & _ & F & _). exists s, t, p. auto. }
    split; [|split; [exact H1|split; [exact H6|]]].
    - split; [lia|]. intros n b c Hb Hc. destruct (in_dec Nat.eq_dec n qu) as [Hin|Hin].
      + apply In_nth_error in Hin. destruct Hin as [i Hi]. right. apply (Hq i n Hi b Hb); [|exact Hc].
        destruct (Hwet i n Hi) as (s & t & p & E & F). rewrite Hb in E. injection E as ->. exact F.
      + rewrite (H6 n (or_intror Hin)) in Hb. exact (HS _ _ _ Hb Hc).
    - intros n Hin Hnw. apply In_nth_error in Hin. destruct Hin as [[|i] Hi].
      { exfalso. destruct (nth_error stp0 root) as [[[s t] p]|] eqn:E; [|apply nth_error_None in E; lia].
        destruct (isfinite p) eqn:Ep.
        - assert (Hw : wet_at stp0 root) by (exists s, t, p; auto). rewrite (H3 Hw) in Hi. injection Hi as <-. exact (Hnw Hw).
        - assert (Hw : ~ wet_at stp0 root) by (intros (s2 & t2 & p2 & E' & F'); congruence). rewrite (H4 Hw) in Hi. discriminate. }
      destruct (H7 i n Hi) as (j & m & Hij & Hj' & HE & [Hw|(b & r & Hb & Hr' & Hl & Ha)]); [exact (False_ind _ (Hnw Hw))|].
      destruct (nth_error casts' m) as [c|] eqn:Ec; [|apply nth_error_None in Ec; apply nth_error_lt in Hb; lia].
      destruct (Hwet j m Hj') as (s & t & p & E & F). rewrite Hb in E. injection E as ->.
      destruct Hl as (Sc & Tc & Pc & Hn & Hl). destruct (cast_of n _ Hn) as (c' & Hc' & _). destruct r as [[s' t'] p']. pose proof Ha as (ml & _ & Fr & _).
      assert (Hok : okb64 (s, t, p)).
      { destruct (Hq j m Hj' _ Hb F c Ec) as [H|(vs & vt & H)]; [left; exact H|right; exists vs, vt; exact (sampled_water m c _ vs vt Ec H)]. }
      destruct (link_ok (s, t, p) n Sc Tc Pc c' Hok Hn Hc') as (r' & Er & Hr'2). rewrite Hl in Er.
      assert (r' = (s', t', p')) by congruence. subst r'. destruct Hr'2 as [Hx|[Hnl Hs]].
      { assert (p' = nan) by congruence. subst p'. discriminate. }
      destruct (Hq j m Hj' _ Hb F c Ec) as [H|(vs & vt & H)]; [exact (False_ind _ (Hnl H))|].
      destruct (link_water (s, t, p) vs vt n Sc Tc Pc c' (sampled_water m c _ vs vt Ec H) Hn Hc') as (r' & Er' & Hr'3).
      rewrite Hl in Er'. assert (r' = (s', t', p')) by congruence. subst r'.
      exists m, c, c', (s, t, p), vs, vt, (s', t', p'). split; [exact (nth_error_In _ _ Hj')|]. split; [exact HE|]. split; [exact Ec|]. split; [exact Hc'|].
      split; [exact Hb|]. split; [exact Hr'|]. split; [exact H|]. split; [exact Hr'3|exact Hs].
  Qed.

  (** ** bfs_conncomp1_wet_perim *)
  Hypothesis Hroom : Forall (cast_in (sea s0 (pm - 1))) casts'.
  Hypothesis Hdeg : forall m, INR (length (listed indptr indices m)) <= powerRZ 2 32.

  Lemma cast_ppc_64 m Pm Sppc Tppc : cast_ppc ppc_fn casts m Pm Sppc Tppc ->
    exists Sc Tc Pc c' gS gT (A C : f64), nth_error casts m = Some (Sc, Tc, Pc) /\ nth_error casts' m = Some c' /\ profile rel c' gS gT (fval A) (fval C)
      /\ powerRZ 2 (-900) <= fval A /\ fval C <= pm - 1
      /\ (forall s t p r, ntp_bottle_to_cast_pub eos ppc_fn fuel s t p Sc Tc Pc tol = Ok r -> ntp_bottle_to_cast_ppc eos fuel tol s t p Pm Sppc Tppc = Ok (snd r))
      /\ (forall gS' gT' lo hi, profile rel c' gS' gT' lo hi -> lo = fval A /\ hi = fval C)
      /\ forall p : f64, finite64 p -> exists s t, ppval_1_two p Pm Sppc Tppc 0 = Ok (s, t)
           /\ (fval A <= fval p <= fval C /\ sampled rel e c' (s, t, p) (gS (fval p)) (gT (fval p))
               \/ (fval p < fval A \/ fval C < fval p) /\ s = nan /\ t = nan).
  Proof.
    intros (Sc & Tc & Pc & k & K & Hn & Hv & HK & -> & ES & ET).
    destruct (cast_of m _ Hn) as (c' & Hc' & Hh' & (Ha & Hin & Hsp & Hst & Hfu)).
    assert (Hrm : cast_in (sea s0 (pm - 1)) c') by (rewrite Forall_forall in Hroom; exact (Hroom _ (nth_error_In _ _ Hc'))).
    destruct c' as [[S' T'] P']. destruct Ha as [Hs|(k' & K' & ss & ts & ps & HC & H2)].
    { destruct (short_range64 _ _ _ _ _ _ Hh' Hs) as (k' & K' & E & HK'). rewrite Hv in E. injection E as <- <-. apply Nat.ltb_ge in HK'. lia. }
    destruct Hh' as (HS & HT & HP). assert (E := cast_range64 Sc Pc S' T' P' k' K' ss ts ps HS HP HC). rewrite Hv in E. injection E as <- <-.
    destruct (cast_interpolants64 ppc_fn rel s0 pm e Hpm Hs0 Hppc Sc Tc Pc S' T' P' k K ss ts ps HS HT HP HC H2 Hin Hsp)
      as (Sppc' & Tppc' & gS & gT & A & C & E1 & E2 & Hpr & G0 & G1 & FA & FB & VA & VB & Hval).
    rewrite ES in E1. injection E1 as <-. rewrite ET in E2. injection E2 as <-.
    exists Sc, Tc, Pc, (S', T', P'), gS, gT, A, C. split; [exact Hn|]. split; [exact Hc'|]. split; [exact Hpr|].
    pose proof (cast_blk _ _ _ _ _ _ _ _ HC) as HBk. pose proof (blk_K _ _ _ _ _ _ HBk) as HbK. pose proof (blk_len _ _ _ _ _ _ HBk) as Hl.
    split; [rewrite VA; exact (Hst _ _ _ _ _ HC)|].
    split. { rewrite VB. destruct (Hrm _ _ _ _ _ HC (K - 1)%nat ltac:(lia)) as (_ & _ & D3). cbn [sea box dP] in D3. unfold upto in D3. lra. }
    split.
    { intros s t p r Hr. unfold ntp_bottle_to_cast_pub in Hr. rewrite Hv in Hr. cbn [bind] in Hr. unfold ntp_bottle_to_cast in Hr.
      replace (Nat.ltb 1 (K - k)) with true in Hr by (symmetry; apply Nat.ltb_lt; lia). rewrite ES, ET in Hr. cbn [bind] in Hr.
      destruct (ntp_bottle_to_cast_ppc eos fuel tol s t p (slice Pc k K) Sppc Tppc) as [q|]; [|discriminate]. cbn [bind] in Hr.
      destruct (isfinite q); [|assert (E : (nan, nan, q) = r) by congruence; rewrite <- E; reflexivity].
      destruct (ppval_1_nonan_two q (slice Pc k K) Sppc Tppc 0) as [[s1 t1]|]; [|discriminate]. cbn [bind] in Hr.
      assert (E : (s1, t1, q) = r) by congruence. rewrite <- E. reflexivity. }
    split.
    { intros gS' gT' lo hi Hpr'. destruct (prof _ _ _ _ _ _ Hpr') as (k2 & K2 & ss2 & ts2 & ps2 & HC2 & _ & _ & _ & _ & _ & -> & ->). cbn [fst snd] in HC2.
      assert (E := cast_range64 Sc Pc S' T' P' k2 K2 ss2 ts2 ps2 HS HP HC2). rewrite Hv in E. injection E as <- <-.
      pose proof (cast_blk _ _ _ _ _ _ _ _ HC2) as HB2. rewrite VA, VB.
      assert (Q : forall i, (k <= i < K)%nat -> ps2 i = ps i).
      { intros i Hi. pose proof (blk_X _ _ _ _ _ _ HB2 i Hi) as X2. pose proof (blk_X _ _ _ _ _ _ HBk i Hi) as X1. congruence. }
      split; apply Q; lia. }
    assert (B1 : block (slice P' k K) (slice S' k K) 0 (length (slice P' k K)) (from k ps) (from k ss)).
    { apply (block_slice P' S' S' k K ps ss ss HBk); [lia|]. apply (blk_Y _ _ _ _ _ _ HBk). }
    pose proof (cast_lenT _ _ _ _ _ _ _ _ HC) as HlT.
    intros p Fp. assert (Eq : ppval_1_two p (slice Pc k K) Sppc Tppc 0 = ppval_1_nonan_two p (slice Pc k K) Sppc Tppc 0).
    { apply (ppval_two_clean ppc_fn _ _ (slice Tc k K) _ _ _ _ _ _ p Hkeep (holds_slice Pc P' k K HP) (holds_slice Sc S' k K HS)) with (2 := B1); try assumption.
      - rewrite !length_slice; rewrite ?(holds_length _ _ HT), ?(holds_length _ _ HP); lia.
      - rewrite length_slice; lia. }
    rewrite Eq. clear Eq. destruct (Rlt_dec (fval p) (fval A)) as [L1|L1]; [|destruct (Rlt_dec (fval C) (fval p)) as [L2|L2]].
    - exists nan, nan. split; [|right; auto]. unfold ppval_1_nonan_two, locate_nonan. change (isnan p) with (sf_isnan p). rewrite (finite_isnan p Fp).
      rewrite G0. cbn [bind]. change (p <? A)%num with (SFltb p A). rewrite ltb_val by assumption. rewrite Rlt_bool_true by exact L1. reflexivity.
    - exists nan, nan. split; [|right; auto]. unfold ppval_1_nonan_two, locate_nonan. change (isnan p) with (sf_isnan p). rewrite (finite_isnan p Fp).
      rewrite G0. cbn [bind]. change (p <? A)%num with (SFltb p A). rewrite ltb_val by assumption. rewrite Rlt_bool_false by lra.
      rewrite G1. cbn [bind]. change (C <? p)%num with (SFltb C p). rewrite ltb_val by assumption. rewrite Rlt_bool_true by exact L2. reflexivity.
    - destruct (Hval p Fp ltac:(lra)) as (s & t & Ep & Ws & Wt). exists s, t. split; [exact Ep|left]. split; [lra|].
      exists gS, gT, (fval A), (fval C), s, t, p. split; [exact Hpr|]. split; [reflexivity|]. split; [exact Fp|]. split; [lra|]. auto.
  Qed.

  Lemma ppc_link_ok b m Pm Sppc Tppc : okb64 b -> cast_ppc ppc_fn casts m Pm Sppc Tppc ->
    exists c' r, nth_error casts' m = Some c' /\ (let '(s, t, p) := b in ntp_bottle_to_cast_ppc eos fuel tol s t p Pm Sppc Tppc = Ok (snd r))
      /\ (r = (nan, nan, nan) \/ (~ lost pm b /\ exists vs vt, sampled rel e c' r vs vt)).
  Proof.
    intros Hb Hc. destruct (cast_ppc_64 m Pm Sppc Tppc Hc) as (Sc & Tc & Pc & c' & gS & gT & A & C & Hn & Hn' & _ & _ & _ & Hlk & _).
    destruct (link_ok b m Sc Tc Pc c' Hb Hn Hn') as (r & Er & Hr). exists c', r. split; [exact Hn'|]. split; [|exact Hr].
    destruct b as [[s t] p]. exact (Hlk s t p r Er).
  Qed.

  Lemma link_range c' r vs vt gS gT A C : (forall gS' gT' lo hi, profile rel c' gS' gT' lo hi -> lo = A /\ hi = C) -> profile rel c' gS gT A C ->
    sampled rel e c' r vs vt -> finite64 (snd r) /\ A <= fval (snd r) <= C.
  Proof.
    intros Hu Hp (gS' & gT' & lo & hi & s & t & p & Hp' & -> & Fp & Ip & _). destruct (Hu _ _ _ _ Hp') as [-> ->]. cbn [snd]. split; assumption.
  Qed.

  Lemma mean_64 m n Pm Sppc Tppc (qs : list f64) : cast_ppc ppc_fn casts m Pm Sppc Tppc -> qs <> [] -> (length qs <= n)%nat -> INR n <= powerRZ 2 32 ->
    (forall q, In q qs -> isfinite q = true /\ exists sB tB pB, okb64 (sB, tB, pB) /\ isfinite pB = true
            /\ ntp_bottle_to_cast_ppc eos fuel tol sB tB pB Pm Sppc Tppc = Ok q) ->
    exists p s t c', sdiv (fold_left add qs (lit 0 0)) (of_nat (length qs)) = Ok p /\ ppval_1_two p Pm Sppc Tppc 0 = Ok (s, t)
      /\ nth_error casts' m = Some c' /\ mean64 qs p
      /\ ((exists vs vt, sampled rel e c' (s, t, p) vs vt)
          \/ lost pm (s, t, p) /\ exists gS gT lo hi, profile rel c' gS gT lo hi /\ (fval p < lo \/ hi < fval p)).
  Proof.
    intros Hc Hne Hlen Hn Hq. destruct (cast_ppc_64 m Pm Sppc Tppc Hc) as (Sc & Tc & Pc & c' & gS & gT & A & C & Hm & Hm' & Hpr & HA & HC & Hlk & Hu & Hev).
    assert (Hq' : forall q, In q qs -> finite64 q /\ fval A <= fval q <= fval C).
    { intros q Iq. destruct (Hq q Iq) as (Fq & sB & tB & pB & Hb & _ & Eq).
      destruct (ppc_link_ok _ m Pm Sppc Tppc Hb Hc) as (c2 & r & Hc2 & Er & Hr). rewrite Eq in Er. assert (q = snd r) by congruence. subst q.
      destruct Hr as [->|[_ (vs & vt & Hs)]]; [discriminate|]. assert (c2 = c') by congruence. subst c2. exact (link_range c' r vs vt gS gT _ _ Hu Hpr Hs). }
    assert (Hn' : INR (length qs) <= powerRZ 2 32) by (eapply Rle_trans; [apply le_INR; exact Hlen|exact Hn]).
    destruct (mean_ok qs (fval A) (fval C) Hne Hn' HA ltac:(lra) Hq') as (p & Ep & Hp & Hm2).
    assert (Fp := proj1 Hp). destruct (Hev p Fp) as (s & t & Es & Hst). exists p, s, t, c'. split; [exact Ep|]. split; [exact Es|]. split; [exact Hm'|]. split; [exact Hp|].
    destruct Hst as [[_ Hs]|(Ho & -> & ->)]; [left; eauto|right]. split.
    - exists p. split; [reflexivity|]. split; [exact Fp|]. destruct Hp as [_ Hp]. cbv zeta in Hp.
      set (mm := Rsum (map fval qs) / INR (length qs)) in *. set (nn := INR (length qs)) in *.
      assert (N1 : 0 <= nn) by apply pos_INR. assert (E32 : powerRZ 2 32 = 4294967296) by (simpl; lra). assert (E53 : powerRZ 2 (-53) = / 9007199254740992) by (simpl; lra).
      pose proof (pow2_pos (-900)) as P9.
      assert (KK : 0 <= (2 * nn + 2) * powerRZ 2 (-53) <= / 100000) by (rewrite E53; lra).
      assert (MM : (2 * nn + 2) * powerRZ 2 (-53) * mm <= / 100000 * mm) by (apply Rmult_le_compat_r; lra).
      apply Rabs_le_inv in Hp. lra.
    - exists gS, gT, (fval A), (fval C). split; [exact Hpr|exact Ho].
  Qed.

  Lemma perim_closed64 : closed_p eos ppc_fn fuel casts tol (listed indptr indices) okb64 stp0.
  Proof.
    split.
    - intros n s t p Hn Hf. exact (stp_okb n (s, t, p) Hn Hf).
    - intros m Pm Sppc Tppc s t p Hc (qs & Hne & Hle & Hq & Ep) Ev _.
      destruct (mean_64 m _ Pm Sppc Tppc qs Hc Hne Hle (Hdeg m) Hq) as (p' & s' & t' & c' & Ep' & Ev' & Hc' & _ & Hst).
      assert (p' = p) by congruence. subst p'. assert (s' = s) by congruence. assert (t' = t) by congruence. subst s' t'.
      destruct Hst as [(vs & vt & Hs)|[Hl _]]; [right; exists vs, vt; exact (sampled_water m c' _ vs vt Hc' Hs)|left; exact Hl].
  Qed.

  Lemma ppc_ok64 Sc Tc Pc k K m : nth_error casts m = Some (Sc, Tc, Pc) -> valid_range_1_two Sc Pc = Ok (k, K) ->
    (1 < K - k)%nat -> exists Sppc Tppc, ppc_fn (slice Pc k K) (slice Sc k K) = Ok Sppc /\ ppc_fn (slice Pc k K) (slice Tc k K) = Ok Tppc.
  Proof.
    intros Hn Hv HK. destruct (cast_of m _ Hn) as ([[S' T'] P'] & Hc' & Hh' & (Ha & Hin & Hsp & _)).
    destruct Ha as [Hs|(k' & K' & ss & ts & ps & HC & H2)].
    { destruct (short_range64 _ _ _ _ _ _ Hh' Hs) as (k' & K' & E & HK'). rewrite Hv in E. injection E as <- <-. apply Nat.ltb_ge in HK'. lia. }
    destruct Hh' as (HS & HT & HP). assert (E := cast_range64 Sc Pc S' T' P' k' K' ss ts ps HS HP HC). rewrite Hv in E. injection E as <- <-.
    destruct (cast_interpolants64 ppc_fn rel s0 pm e Hpm Hs0 Hppc Sc Tc Pc S' T' P' k K ss ts ps HS HT HP HC H2 Hin Hsp)
      as (Sppc' & Tppc' & gS & gT & A & C & E1 & E2 & _). eauto.
  Qed.

  Lemma perim64 junk n_rep lf : (root < N)%nat -> (N <= length junk)%nat -> (N < lf)%nat ->
    let C := reach (adj indptr indices) (wet_at stp0) root in
    exists D stp, bfs_conncomp1_wet_perim eos ppc_fn fuel casts tol p_ml lf junk indptr indices root n_rep stp0 = Ok (length D, stp)
      /\ surface64 rel e pm casts' stp
      /\ NoDup D
      /\ (forall n, C n -> nth_error stp n = nth_error stp0 n)
      /\ (forall n s t p, ~ C n -> ~ In n D -> nth_error stp0 n = Some (s, t, p) -> nth_error stp n = Some (s, t, nan))
      /\ (forall n, In n D -> (n < N)%nat /\ ~ wet_at stp0 n /\ reach (adj indptr indices) (fun y => C y \/ In y D) root n
            /\ wetted64 rel rho (fval tol) e (2 * d') pm casts' (listed indptr indices) stp n).
  Proof.
    intros Hr Hj Hlf CC.
    pose proof (bfs_wet_perim_correct eos ppc_fn fuel casts tol p_ml N indptr indices root stp0 Hcsr Hcasts Hml stp_length
      len64 eq_refl okb64 perim_closed64 junk n_rep Hr Hj lf Hlf) as H. cbv zeta in H.
    destruct (bfs_conncomp1_wet_perim _ _ _ _ _ _ _ _ _ _ _ _ _) as [[new stp]|er]; cbn [okor] in H.
    2:{ exfalso. destruct H as [(Sc & Tc & Pc & k & K & m & H1 & H2 & H3 & H4)|(m & Pm & Sppc & Tppc & Hc & [H|[H|H]])].
      - destruct (ppc_ok64 _ _ _ _ _ _ H1 H2 H3) as (Sppc & Tppc & E1 & E2). destruct H4; congruence.
      - destruct H as (s & t & p & _ & Hb & El). destruct (ppc_link_ok _ m Pm Sppc Tppc Hb Hc) as (c' & r & _ & Er & _). rewrite El in Er. discriminate.
      - destruct H as (x & n & Hn & E). unfold sdiv in E. replace (eqb (of_nat (S n) : f64) zero) with false in E; [discriminate|]. symmetry.
        assert (Hn2 : INR (S n) <= powerRZ 2 40).
        { apply Rle_trans with (powerRZ 2 32); [|apply pow2_le; lia]. apply Rle_trans with (INR (length (listed indptr indices m))); [apply le_INR; lia|apply Hdeg]. }
        destruct (of_nat_exact (S n) Hn2) as [Fn Vn].
        change (eqb (of_nat (S n) : f64) zero) with (SFeqb (of_nat (S n) : f64) (S754_zero false)). apply sf_eqb_zero; [exact Fn|]. rewrite Vn.
        apply not_0_INR. discriminate.
      - destruct H as (p & (qs & Hne & Hle & Hq & Ep) & Ev).
        destruct (mean_64 m _ Pm Sppc Tppc qs Hc Hne Hle (Hdeg m) Hq) as (p' & s' & t' & c' & Ep' & Ev' & _).
        assert (p' = p) by congruence. subst p'. congruence. }
    destruct H as (D & -> & HND & Ls & Hkeep' & Hrest & HD & _ & _ & Hok). exists D, stp. split; [reflexivity|].
    pose proof stp_length as Ls0. pose proof casts_length as Lc.
    (* links to the new casts *)
    assert (HDw : forall n, In n D -> exists c ps p s t, nth_error casts' n = Some c /\ ps <> [] /\ nth_error stp n = Some (s, t, p)
       /\ (exists used, map fst ps = filter used (listed indptr indices n))
       /\ mean64 (map snd ps) p
       /\ (forall n' q, In (n', q) ps -> link_p eos ppc_fn fuel casts tol stp n' n (Ok q) /\ isfinite q = true)
       /\ ((exists vs vt, sampled rel e c (s, t, p) vs vt)
            \/ lost pm (s, t, p) /\ exists gS gT lo hi, profile rel c gS gT lo hi /\ (fval p < lo \/ hi < fval p))).
    { intros n Hn. destruct (HD n Hn) as (_ & _ & _ & Pm & Sppc & Tppc & ps & s & t & p & H1 & H2 & H3 & H4 & H5 & H6 & _ & Hused).
      destruct (mean_64 n (length ps) Pm Sppc Tppc (map snd ps) H1) as (p' & s' & t' & c' & Ep' & Ev' & Hc' & Hm & Hst).
      - destruct ps; [congruence|discriminate].
      - rewrite map_length. apply le_n.
      - destruct Hused as [u Hu]. rewrite <- (map_length fst), Hu. eapply Rle_trans; [|apply (Hdeg n)]. apply le_INR.
        clear. induction (listed indptr indices n) as [|x l IH]; [apply le_n|]. cbn [filter]. destruct (u x); cbn [length]; lia.
      - intros q Iq. apply in_map_iff in Iq. destruct Iq as ([n' q'] & <- & Hin). cbn [snd].
        destruct (H6 _ _ Hin) as ((Pm' & Sppc' & Tppc' & s' & t' & p' & G1 & G2 & G3 & G4) & (m' & _ & Hf & _)).
        split; [exact Hf|]. exists s', t', p'. split; [exact (Hok n' _ _ _ G2 G3)|]. split; [exact G3|].
        destruct (cast_ppc_fun ppc_fn casts _ _ _ _ _ _ _ H1 G1) as (-> & -> & ->). exact G4.
      - rewrite map_length in Ep'. assert (p' = p) by congruence. subst p'. assert (s' = s) by congruence. assert (t' = t) by congruence. subst s' t'.
        exists c', ps, p, s, t. split; [exact Hc'|]. split; [exact H2|]. split; [exact H5|]. split; [exact Hused|]. split; [exact Hm|]. split; [|exact Hst].
        intros n' q Hin. destruct (H6 _ _ Hin) as (G1 & (m' & _ & Hf & _)). split; assumption. }
    assert (Hsurf : surface64 rel e pm casts' stp).
    { split; [lia|]. destruct Hstp as [_ HS]. intros n b c Hb Hc. destruct (in_dec Nat.eq_dec n D) as [Hin|Hin].
      - destruct (HDw n Hin) as (c' & ps & p & s & t & Hc' & _ & Hb' & _ & _ & _ & Hst). rewrite Hb in Hb'. injection Hb' as ->. rewrite Hc in Hc'. injection Hc' as <-.
        right. destruct Hst as [Hs|[Hl _]]; [right; exact Hs|left; exact Hl].
      - pose proof (nth_error_lt _ _ _ Hb) as Hlt. destruct (nth_error stp0 n) as [[[s t] p]|] eqn:Ex; [|apply nth_error_None in Ex; lia].
        destruct (bfs_component N indptr indices root (map (fun b : bottle64 => isfinite (snd b)) stp0) junk Hcsr) as (qu & good' & _ & _ & Hqu & _);
          [rewrite map_length; exact Ls0|exact Hr|exact Hj|].
        assert (Hmk : forall m, mask (map (fun b : bottle64 => isfinite (snd b)) stp0) m <-> wet_at stp0 m).
        { intros m. unfold mask, wet_at. rewrite nth_error_map. split.
          - destruct (nth_error stp0 m) as [[[s' t'] p']|]; cbn [option_map]; [|discriminate]. intros G. injection G as G. exists s', t', p'. auto.
          - intros (s' & t' & p' & -> & G). exact (f_equal Some G). }
        destruct (in_dec Nat.eq_dec n qu) as [Hq|Hq].
        + apply Hqu in Hq. assert (HC : CC n) by (eapply reach_mono; [|exact Hq]; intros m; apply Hmk).
          rewrite (Hkeep' n HC) in Hb. exact (HS _ _ _ Hb Hc).
        + assert (HC : ~ CC n). { intros G. apply Hq, Hqu. eapply reach_mono; [|exact G]. intros m. apply Hmk. }
          pose proof (Hrest n s t p HC Hin Ex) as G. rewrite Hb in G. injection G as ->. left. reflexivity. }
    split; [exact Hsurf|]. split; [exact HND|]. split; [exact Hkeep'|]. split; [exact Hrest|].
    intros n Hn. destruct (HD n Hn) as (Hlt & Hnw & Hre & _). split; [exact Hlt|]. split; [exact Hnw|]. split; [exact Hre|].
    destruct (HDw n Hn) as (c & ps & p & s & t & Hc & Hne & Hb & Hused & Hm & Hlinks & Hst).
    exists c, ps, p, (s, t, p). split; [exact Hc|]. split; [exact Hne|]. split; [exact Hb|]. split; [reflexivity|]. split; [exact Hused|].
    split; [|split; [exact Hm|exact Hst]].
    intros n' q Hin. destruct (Hlinks n' q Hin) as ((Pm & Sppc & Tppc & s' & t' & p' & G1 & G2 & G3 & G4) & Fq).
    destruct (nth_error casts' n') as [c'|] eqn:Ec'; [|apply nth_error_None in Ec'; apply nth_error_lt in G2; lia].
    assert (Hb' : okb64 (s', t', p')) by exact (Hok n' _ _ _ G2 G3).
    destruct (ppc_link_ok _ n Pm Sppc Tppc Hb' G1) as (c2 & r & Hc2 & Er & Hr2). rewrite G4 in Er. assert (Eq : q = snd r) by congruence.
    destruct Hr2 as [->|[Hnl Hs2]]; [subst q; discriminate|].
    destruct Hsurf as [_ HS]. destruct (HS _ _ _ G2 Ec') as [E|[E|(vs & vt & Hs)]]; [cbn [snd] in E; subst p'; discriminate|exact (False_ind _ (Hnl E))|].
    destruct (cast_ppc_64 n Pm Sppc Tppc G1) as (Sc & Tc & Pc & c3 & gS & gT & A & CA & Hn1 & Hn2 & Hpr & _ & _ & Hlk & Hu & _).
    assert (c3 = c) by congruence. assert (c2 = c) by congruence. subst c2 c3.
    destruct (link_water (s', t', p') vs vt n Sc Tc Pc c (sampled_water n' c' _ vs vt Ec' Hs) Hn1 Hc) as (r2 & Er2 & Hsp2).
    apply Hlk in Er2. rewrite G4 in Er2. assert (Eq2 : q = snd r2) by congruence.
    exists c', (s', t', p'), vs, vt. destruct r2 as [[s2 t2] q2]. cbn [snd] in Eq2. subst q2. exists s2, t2. split; [reflexivity|]. split; [exact G2|]. split; [exact Hs|]. split; [exact Hsp2|].
    destruct Hs2 as (v1 & v2 & Hs2). rewrite Eq. exact (proj1 (link_range c r v1 v2 gS gT _ _ Hu Hpr Hs2)).
  Qed.
End Search.

(** ** With a scheme and an equation of state chosen by name *)
Lemma wet_named64 : forall interp ppc rel e, scheme64 interp ppc rel e ->
  forall eos rho s0 pm d B, named64 eos rho s0 pm e d B ->
  forall junk0 tol : f64, finite64 tol -> tolerance_ok (fval tol) ->
  forall fuel casts casts', Forall2 holds_column casts casts' -> Forall (column_ok64 s0 pm fuel (fval tol)) casts' ->
  forall p_ml N indptr indices root stp0, csr N indptr indices -> length casts = N -> length p_ml = N -> surface64 rel e pm casts' stp0 ->
  forall junk lf, (root < N)%nat -> (N <= length junk)%nat -> (N < lf)%nat ->
  exists qu new stp, bfs_conncomp1_wet eos (ppc junk0) fuel casts tol p_ml lf junk indptr indices root stp0 = Ok (qu, new, stp)
    /\ surface64 rel e pm casts' stp
    /\ NoDup qu
    /\ (forall n, wet_at stp0 n \/ ~ In n qu -> nth_error stp n = nth_error stp0 n)
    /\ (forall n, In n qu -> ~ wet_at stp0 n -> exists m c c' b vs vt r, In m qu /\ adj indptr indices m n
          /\ nth_error casts' m = Some c /\ nth_error casts' n = Some c' /\ nth_error stp m = Some b /\ nth_error stp n = Some r
          /\ sampled rel e c b vs vt /\ surface_point64 rel (neutral_of rho vs vt (fval (snd b))) (fval tol) e (2 * d) c' r
          /\ exists vs' vt', sampled rel e c' r vs' vt').
Proof.
  intros interp ppc rel e Hs eos rho s0 pm d B Hn junk0 tol Ft Ht fuel casts casts' Hh Hc p_ml N indptr indices root stp0 Hcsr HN Hml Hstp junk lf Hr Hj Hlf.
  destruct (named64_room _ _ _ _ _ _ _ Hn) as [d0 Her].
  exact (wet64 eos rho s0 pm e d B d0 Her (ppc junk0) rel (scheme_sea _ _ _ _ junk0 Hs) tol Ft Ht casts casts' fuel Hh Hc
    p_ml N indptr indices root stp0 Hcsr HN Hml Hstp junk lf Hr Hj Hlf).
Qed.
Lemma perim_named64 : forall interp ppc rel e, scheme64 interp ppc rel e ->
  forall eos rho s0 pm d B, named64 eos rho s0 pm e d B ->
  forall junk0 tol : f64, finite64 tol -> tolerance_ok (fval tol) ->
  forall fuel casts casts', Forall2 holds_column casts casts' -> Forall (column_ok64 s0 pm fuel (fval tol)) casts' ->
  Forall (cast_in (sea s0 (pm - 1))) casts' ->
  forall p_ml N indptr indices root stp0, csr N indptr indices -> length casts = N -> length p_ml = N -> surface64 rel e pm casts' stp0 ->
  (forall m, INR (length (listed indptr indices m)) <= powerRZ 2 32) ->
  forall junk n_rep lf, (root < N)%nat -> (N <= length junk)%nat -> (N < lf)%nat ->
  let C := reach (adj indptr indices) (wet_at stp0) root in
  exists D stp, bfs_conncomp1_wet_perim eos (ppc junk0) fuel casts tol p_ml lf junk indptr indices root n_rep stp0 = Ok (length D, stp)
    /\ surface64 rel e pm casts' stp
    /\ NoDup D
    /\ (forall n, C n -> nth_error stp n = nth_error stp0 n)
    /\ (forall n s t p, ~ C n -> ~ In n D -> nth_error stp0 n = Some (s, t, p) -> nth_error stp n = Some (s, t, nan))
    /\ (forall n, In n D -> (n < N)%nat /\ ~ wet_at stp0 n /\ reach (adj indptr indices) (fun y => C y \/ In y D) root n
          /\ wetted64 rel rho (fval tol) e (2 * d) pm casts' (listed indptr indices) stp n).
Proof.
  intros interp ppc rel e Hs eos rho s0 pm d B Hn junk0 tol Ft Ht fuel casts casts' Hh Hc Hroom p_ml N indptr indices root stp0 Hcsr HN Hml Hstp Hdeg junk n_rep lf Hr Hj Hlf.
  destruct (named64_room _ _ _ _ _ _ _ Hn) as [d0 Her].
  exact (perim64 eos rho s0 pm e d B d0 Her (ppc junk0) rel (scheme_sea _ _ _ _ junk0 Hs) (scheme_keeps _ _ _ _ junk0 Hs) tol Ft Ht casts casts' fuel Hh Hc
    p_ml N indptr indices root stp0 Hcsr HN Hml Hstp Hroom Hdeg junk n_rep lf Hr Hj Hlf).
Qed.
