(** * The Veronis density: the integral *)
From Coq Require Import String ZArith Bool Reals Lra Lia List.
From Coquelicot Require Import Coquelicot.
From Verif Require Import Num XR Res Arr ArrLemmas XRlemmas M_numpy M_ppinterp S_interp S_poly P_numpy P_ppinterp P_pval P_pchip P_interp
  P_coeffs NumLaws P_interp2 M_make_pp M_eos_base M_eostools M_label S_traj S_label P_quad P_label.
Import ListNotations.
Local Open Scope R_scope.

Section Integral.
  Variables (P : list xr) (K : nat) (ps : nat -> R).
  Hypothesis HP : forall i, (i < K)%nat -> nth_error P i = Some (Fin (ps i)).
  Hypothesis Hinc : forall i, (S i < K)%nat -> ps i < ps (S i).
  Hypothesis H1K : (1 < K)%nat.
  Hypothesis Hdeep : forall i v, (K <= i)%nat -> nth_error P i = Some v -> v = NaN \/ exists r, v = Fin r /\ ps (K - 1)%nat <= r.
  Variables (Sppc Tppc : list (list xr)) (cS cT : nat -> list R).
  Hypothesis HS : forall i, (S i < K)%nat -> nth_error Sppc i = Some (map Fin (cS i)).
  Hypothesis HT : forall i, (S i < K)%nat -> nth_error Tppc i = Some (map Fin (cT i)).
  Variables (dp : R).
  Hypothesis Hdp : 0 < dp.
  Variables (eos_s_t : xr -> xr -> xr -> res (xr * xr)) (f g : R -> R).
  Hypothesis Hst : forall i x, (S i < K)%nat -> ps i <= x <= ps (S i) ->
    eos_s_t (Fin (pval (x - ps i) (cS i) 0)) (Fin (pval (x - ps i) (cT i) 0)) (Fin x) = Ok (Fin (f x), Fin (g x)).

  (** the integrand on piece i *)
  Definition yk (i : nat) (x : R) : R := f x * pval (x - ps i) (cS i) 1 + g x * pval (x - ps i) (cT i) 1.

  (** the value of _int_x_k *)
  Definition J (i : nat) (p : R) : R := tlist (yk i) (linspace p (ps (S i)) (S (nsteps p (ps (S i)) dp))).

  Lemma getP i : (i < K)%nat -> get P i = Ok (Fin (ps i)).
  Proof. intros H. apply get_ok. apply HP. assumption. Qed.

  Lemma ps_le i j : (i <= j)%nat -> (j < K)%nat -> ps i <= ps j.
  Proof.
    clear H1K. intros H1 H2. induction j as [|j IH]; [replace i with 0%nat by lia; lra|].
    destruct (Nat.eq_dec i (S j)) as [->|]; [lra|].
    pose proof (Hinc j ltac:(lia)). specialize (IH ltac:(lia) ltac:(lia)). lra.
  Qed.
  Lemma ps_lt i j : (i < j)%nat -> (j < K)%nat -> ps i < ps j.
  Proof.
    clear H1K. intros H1 H2. pose proof (Hinc i ltac:(lia)). pose proof (ps_le (S i) j ltac:(lia) H2). lra.
  Qed.

  Lemma int_x_k_real i p : (S i < K)%nat -> ps i <= p <= ps (S i) ->
    _int_x_k (Fin p) i (Fin dp) P Sppc Tppc eos_s_t = Ok (Fin (J i p)).
  Proof.
    intros Hi Hp. unfold _int_x_k. replace (i + 1)%nat with (S i) by lia. rewrite getP by lia. cbn [bind].
    cbn [sub xrNum xr_sub]. rewrite sdiv_fin by lra. cbn [bind isfinite xrNum xr_isfinite negb ceilZ xr_ceilZ].
    destruct (nsteps_spec p (ps (S i)) dp Hdp ltac:(lra)) as (E & B & _). rewrite E.
    destruct (Z.ltb_spec (Z.of_nat (S (nsteps p (ps (S i)) dp))) 0) as [|_]; [lia|].
    rewrite Nat2Z.id, linspace_fin.
    destruct (linspace_chain p (ps (S i)) dp (nsteps p (ps (S i)) dp) ltac:(lra) B) as (l & El & _ & _ & Hin).
    rewrite (mapM_fin _ (yk i)).
    - cbn [bind]. rewrite trapz_fin. reflexivity.
    - intros x Hx. rewrite El in Hx. specialize (Hin x Hx). rewrite getP by lia. cbn [bind].
      rewrite (get_ok _ _ _ (HS i Hi)), (get_ok _ _ _ (HT i Hi)). cbn [bind].
      cbn [sub xrNum xr_sub]. rewrite !pval_fin. rewrite Hst by (try assumption; lra). cbn [bind fst snd].
      reflexivity.
  Qed.

  Lemma J_end i : (S i < K)%nat -> J i (ps (S i)) = 0.
  Proof.
    intros Hi. unfold J. replace (nsteps (ps (S i)) (ps (S i)) dp) with 0%nat; [reflexivity|].
    unfold nsteps. replace ((ps (S i) - ps (S i)) / dp) with 0 by (field; lra).
    assert (Rceil 0 = 0%Z); [|rewrite H; reflexivity].
    destruct (Rceil_spec 0) as [A B]. 
    assert (-1 < Rceil 0)%Z by (apply lt_IZR; lra). assert (Rceil 0 < 1)%Z by (apply lt_IZR; lra). lia.
  Qed.

  (** piece of a pressure, as the code finds it: max(1, searchsorted(P, p)) - 1 *)
  Definition piece (p : R) : nat := (Nat.max 1 (searchsorted P (Fin p)) - 1)%nat.

  Lemma searchsorted_prefix p : ps 0%nat <= p <= ps (K - 1)%nat ->
    let j := searchsorted P (Fin p) in
    (j < K)%nat /\ p <= ps j /\ forall i, (i < j)%nat -> ps i < p.
  Proof.
    intros Hp. cbv zeta. destruct (searchsorted_edges P (Fin p)) as (H1 & H2 & H3).
    set (j := searchsorted P (Fin p)) in *.
    assert (Hj : (j < K)%nat).
    { destruct (Nat.lt_ge_cases j K) as [|Hj]; [assumption|]. exfalso. specialize (H2 ltac:(lia)).
      destruct (Nat.eq_dec j K) as [->|].
      - rewrite (nth_error_nth _ _ nan (HP (K - 1)%nat ltac:(lia))) in H2. cbn [ltb xrNum xr_ltb] in H2.
        rewrite Rltb_false in H2 by lra. discriminate.
      - destruct (nth_error P (j - 1)) as [v|] eqn:E; [|apply nth_error_None in E; lia].
        rewrite (nth_error_nth _ _ nan E) in H2.
        destruct (Hdeep (j - 1)%nat v ltac:(lia) E) as [->|(r & -> & Hr)]; [discriminate|]. cbn [ltb xrNum xr_ltb] in H2.
        rewrite Rltb_false in H2 by lra. discriminate. }
    assert (HL : (K <= length P)%nat) by (pose proof (HP (K - 1)%nat ltac:(lia)) as E; apply nth_error_lt in E; lia).
    split; [assumption|]. split.
    - specialize (H3 ltac:(lia)). rewrite (nth_error_nth _ _ nan (HP j Hj)) in H3. cbn [ltb xrNum xr_ltb] in H3.
      destruct (Rltb_spec (ps j) p); [discriminate|lra].
    - intros i Hi. specialize (H2 ltac:(lia)). rewrite (nth_error_nth _ _ nan (HP (j - 1)%nat ltac:(lia))) in H2.
      cbn [ltb xrNum xr_ltb] in H2. destruct (Rltb_spec (ps (j - 1)%nat) p); [|discriminate].
      pose proof (ps_le i (j - 1)%nat ltac:(lia) ltac:(lia)). lra.
  Qed.

  Lemma piece_spec p : ps 0%nat <= p <= ps (K - 1)%nat ->
    (S (piece p) < K)%nat /\ ps (piece p) <= p <= ps (S (piece p)) /\ (piece p = 0%nat \/ ps (piece p) < p)
    /\ Nat.max 1 (searchsorted P (Fin p)) = S (piece p).
  Proof.
    intros Hp. destruct (searchsorted_prefix p Hp) as (A & B & C). unfold piece.
    set (j := searchsorted P (Fin p)) in *.
    destruct (Nat.eq_dec j 0) as [Ej|Nj].
    - rewrite Ej in *. cbn [Nat.max Nat.sub]. split; [lia|]. split; [|split; [left; reflexivity|reflexivity]].
      pose proof (Hinc 0%nat ltac:(lia)). lra.
    - replace (Nat.max 1 j) with j by lia. pose proof (C (j - 1)%nat ltac:(lia)).
      replace (S (j - 1)) with j by lia. split; [lia|]. split; [lra|]. split; [right; assumption|reflexivity].
  Qed.

  Lemma piece_mono p q : ps 0%nat <= p -> p <= q -> q <= ps (K - 1)%nat -> (piece p <= piece q)%nat.
  Proof.
    intros H1 H2 H3. destruct (piece_spec p ltac:(lra)) as (A & B & C & _).
    destruct (piece_spec q ltac:(lra)) as (A' & B' & _).
    destruct (Nat.le_gt_cases (piece p) (piece q)) as [|Hlt]; [assumption|].
    destruct C as [C|C]; [lia|]. pose proof (ps_le (S (piece q)) (piece p) ltac:(lia) ltac:(lia)). lra.
  Qed.

  Fixpoint Jsum (a n : nat) : R := match n with O => 0 | S n => Jsum a n + J (a + n)%nat (ps (a + n)%nat) end.

  (** the value for p0 <= p1 *)
  Definition D (p0 p1 : R) : R :=
    J (piece p0) p0 + Jsum (S (piece p0)) (piece p1 - piece p0) - J (piece p1) p1.

  Lemma Jsum_shift a n : Jsum a (S n) = J a (ps a) + Jsum (S a) n.
  Proof.
    induction n as [|n IH]; [cbn [Jsum]; replace (a + 0)%nat with a by lia; ring|].
    change (Jsum a (S (S n))) with (Jsum a (S n) + J (a + S n)%nat (ps (a + S n)%nat)). rewrite IH.
    change (Jsum (S a) (S n)) with (Jsum (S a) n + J (S a + n)%nat (ps (S a + n)%nat)).
    replace (S a + n)%nat with (a + S n)%nat by lia. ring.
  Qed.

  Lemma for_each_Jsum n : forall a d, (a + n < K)%nat ->
    for_each (seq a n) (fun k d1 => let! Pk := get P k in let! x := _int_x_k Pk k (Fin dp) P Sppc Tppc eos_s_t in
       Ok (add d1 x)) (Fin d) = Ok (Fin (d + Jsum a n)).
  Proof.
    induction n as [|n IH]; intros a d H; [cbn; do 2 f_equal; ring|].
    cbn [seq for_each]. rewrite getP by lia. cbn [bind].
    rewrite int_x_k_real by (try lia; pose proof (Hinc a ltac:(lia)); lra). cbn [bind add xrNum xr_add].
    rewrite IH by lia. rewrite Jsum_shift. do 2 f_equal. ring.
  Qed.

  Lemma lastP : get P (length P - 1) = Ok (last P NaN).
  Proof.
    assert (Hl : (K <= length P)%nat).
    { pose proof (HP (K - 1)%nat ltac:(lia)) as E. assert (K - 1 < length P)%nat; [|lia].
      apply nth_error_Some. rewrite E. discriminate. }
    apply get_ok. clear -Hl H1K. assert (P <> []) by (destruct P; simpl in *; [lia|discriminate]). clear Hl.
    rewrite (app_removelast_last NaN H) at 1 2. rewrite app_length. cbn [length].
    replace (length (removelast P) + 1 - 1)%nat with (length (removelast P)) by lia.
    rewrite nth_error_app2 by lia. rewrite Nat.sub_diag. reflexivity.
  Qed.

  Lemma last_not_above p : ps 0%nat <= p <= ps (K - 1)%nat -> xr_ltb (last P NaN) (Fin p) = false.
  Proof.
    intros Hp. pose proof lastP as E. apply get_inv in E.
    destruct (Nat.lt_ge_cases (length P - 1) K) as [Hl|Hl].
    - rewrite (HP _ Hl) in E. injection E as <-. cbn [xr_ltb]. apply Rltb_false.
      pose proof (nth_error_lt _ _ _ (HP (K - 1)%nat ltac:(lia))). replace (length P - 1)%nat with (K - 1)%nat by lia. lra.
    - destruct (Hdeep _ _ Hl E) as [->|(r & -> & Hr)]; [reflexivity|]. cbn [xr_ltb]. apply Rltb_false. lra.
  Qed.

  Lemma int_forward p0 p1 : ps 0%nat <= p0 -> p0 <= p1 -> p1 <= ps (K - 1)%nat ->
    _int_dlrpd_dz (Fin p1) (Fin p0) P Sppc Tppc (Fin dp) eos_s_t = Ok (Fin (D p0 p1)).
  Proof.
    intros H0 H1 H2. unfold _int_dlrpd_dz. rewrite getP by lia. cbn [bind]. rewrite lastP. cbn [bind].
    cbn [add xrNum xr_add isnan xr_isnan ltb orb]. rewrite !last_not_above by lra. cbn [xr_ltb].
    rewrite !Rltb_false by lra. cbn [orb leb xrNum xr_leb]. rewrite Rleb_true by lra.
    destruct (piece_spec p0 ltac:(lra)) as (A0 & B0 & _ & E0). destruct (piece_spec p1 ltac:(lra)) as (A1 & B1 & _ & E1).
    rewrite E0, E1. cbn [Nat.sub]. rewrite !Nat.sub_0_r.
    rewrite int_x_k_real by assumption. cbn [bind]. unfold for_range.
    pose proof (piece_mono p0 p1 H0 H1 H2). replace (S (piece p1) - S (piece p0))%nat with (piece p1 - piece p0)%nat by lia.
    pose proof (for_each_Jsum (piece p1 - piece p0) (S (piece p0)) (J (piece p0) p0) ltac:(lia)) as FE.
    cbn [add xrNum] in FE. rewrite FE. cbn [bind].
    rewrite int_x_k_real by assumption. cbn [bind sub mul lit xrNum xr_sub xr_mul]. rewrite Rlit_0.
    unfold D. do 2 f_equal. ring.
  Qed.

  Lemma int_backward p0 p1 : ps 0%nat <= p1 -> p1 < p0 -> p0 <= ps (K - 1)%nat ->
    _int_dlrpd_dz (Fin p1) (Fin p0) P Sppc Tppc (Fin dp) eos_s_t = Ok (Fin (- D p1 p0)).
  Proof.
    intros H0 H1 H2. unfold _int_dlrpd_dz. rewrite getP by lia. cbn [bind]. rewrite lastP. cbn [bind].
    cbn [add xrNum xr_add isnan xr_isnan ltb orb]. rewrite !last_not_above by lra. cbn [xr_ltb].
    rewrite !Rltb_false by lra. cbn [orb leb xrNum xr_leb]. rewrite Rleb_false by lra.
    destruct (piece_spec p0 ltac:(lra)) as (A0 & B0 & _ & E0). destruct (piece_spec p1 ltac:(lra)) as (A1 & B1 & _ & E1).
    rewrite E0, E1. cbn [Nat.sub]. rewrite !Nat.sub_0_r.
    rewrite int_x_k_real by assumption. cbn [bind]. unfold for_range.
    pose proof (piece_mono p1 p0 H0 ltac:(lra) H2). replace (S (piece p0) - S (piece p1))%nat with (piece p0 - piece p1)%nat by lia.
    pose proof (for_each_Jsum (piece p0 - piece p1) (S (piece p1)) (J (piece p1) p1) ltac:(lia)) as FE.
    cbn [add xrNum] in FE. rewrite FE. cbn [bind].
    rewrite int_x_k_real by assumption. cbn [bind sub mul lit xrNum xr_sub xr_mul]. rewrite Rlit_0.
    unfold D. do 2 f_equal. ring.
  Qed.

  Lemma D_self p : ps 0%nat <= p <= ps (K - 1)%nat -> D p p = 0.
  Proof. intros H. unfold D. rewrite Nat.sub_diag. cbn [Jsum]. ring. Qed.

  Lemma Jsum_app a n m : Jsum a (n + m) = Jsum a n + Jsum (a + n) m.
  Proof.
    induction m as [|m IH]; [rewrite Nat.add_0_r; cbn [Jsum]; ring|].
    rewrite Nat.add_succ_r. cbn [Jsum]. rewrite IH. rewrite <- Nat.add_assoc. ring.
  Qed.

  Lemma piece_knot j : (j < K)%nat -> piece (ps j) = (j - 1)%nat.
  Proof.
    intros Hj. pose proof (ps_le 0 j ltac:(lia) Hj). pose proof (ps_le j (K - 1) ltac:(lia) ltac:(lia)).
    destruct (piece_spec (ps j) ltac:(lra)) as (A & B & C & _). set (i := piece (ps j)) in *.
    destruct (Nat.eq_dec i (j - 1)) as [|N]; [assumption|]. exfalso.
    destruct (Nat.lt_ge_cases (S i) j) as [L|L].
    - pose proof (ps_lt (S i) j L Hj). lra.
    - destruct C as [C|C]; [lia|].
      pose proof (ps_le j i ltac:(lia) ltac:(lia)). lra.
  Qed.

  (** additive *)
  Lemma D_add p0 q p1 : ps 0%nat <= p0 -> p0 <= q -> q <= p1 -> p1 <= ps (K - 1)%nat ->
    D p0 q + D q p1 = D p0 p1.
  Proof.
    intros H0 H1 H2 H3. unfold D.
    pose proof (piece_mono p0 q H0 H1 ltac:(lra)) as M1. pose proof (piece_mono q p1 ltac:(lra) H2 H3) as M2.
    replace (piece p1 - piece p0)%nat with ((piece q - piece p0) + (piece p1 - piece q))%nat by lia.
    rewrite Jsum_app. replace (S (piece p0) + (piece q - piece p0))%nat with (S (piece q)) by lia. ring.
  Qed.

  (** the value for any p0, p1 *)
  Definition DD (p0 p1 : R) : R := if Rle_dec p0 p1 then D p0 p1 else - D p1 p0.

  Lemma int_real p0 p1 : in_range K ps p0 -> in_range K ps p1 ->
    _int_dlrpd_dz (Fin p1) (Fin p0) P Sppc Tppc (Fin dp) eos_s_t = Ok (Fin (DD p0 p1)).
  Proof.
    intros [A0 B0] [A1 B1]. unfold DD. destruct (Rle_dec p0 p1) as [H|H].
    - apply int_forward; assumption.
    - apply int_backward; lra.
  Qed.

  Lemma DD_add p0 q p1 : in_range K ps p0 -> in_range K ps q -> in_range K ps p1 -> DD p0 q + DD q p1 = DD p0 p1.
  Proof.
    intros [A0 B0] [Aq Bq] [A1 B1]. unfold DD.
    assert (S : forall x, ps 0%nat <= x <= ps (K - 1)%nat -> D x x = 0) by apply D_self.
    destruct (Rle_dec p0 q), (Rle_dec q p1), (Rle_dec p0 p1); try lra.
    - apply D_add; lra.
    - rewrite <- (D_add p0 p1 q) by lra. lra.
    - rewrite <- (D_add p1 p0 q) by lra. lra.
    - rewrite <- (D_add q p0 p1) by lra. lra.
    - rewrite <- (D_add q p1 p0) by lra. lra.
    - rewrite <- (D_add p1 q p0) by lra. lra.
  Qed.

  (** ** Comparison with the integral *)
  Hypothesis Hf : forall x, continuity_pt f x.
  Hypothesis Hg : forall x, continuity_pt g x.

  Lemma yk_cont i x : continuity_pt (yk i) x.
  Proof.
    unfold yk. apply (continuity_pt_plus (fun x => f x * pval (x - ps i) (cS i) 1) (fun x => g x * pval (x - ps i) (cT i) 1)).
    - apply (continuity_pt_mult f (fun x => pval (x - ps i) (cS i) 1)); [apply Hf|apply pval_shift_continuous].
    - apply (continuity_pt_mult g (fun x => pval (x - ps i) (cT i) 1)); [apply Hg|apply pval_shift_continuous].
  Qed.

  (** the error of one step is at most e times its length *)
  Definition step_error (e : R) : Prop := forall i a b, (S i < K)%nat -> ps i <= a -> a <= b -> b <= ps (S i) -> b - a <= dp ->
    Rabs ((b - a) * ((yk i b + yk i a) / 2) - RInt (yk i) a b) <= e * (b - a).

  Lemma J_error e i p : step_error e -> (S i < K)%nat -> ps i <= p <= ps (S i) ->
    Rabs (J i p - RInt (yk i) p (ps (S i))) <= e * (ps (S i) - p).
  Proof.
    intros He Hi Hp. unfold J.
    destruct (nsteps_spec p (ps (S i)) dp Hdp ltac:(lra)) as (_ & B & Z0).
    destruct (linspace_chain p (ps (S i)) dp (nsteps p (ps (S i)) dp) ltac:(lra) B) as (l & El & Ch & La & Hin).
    rewrite El.
    assert (La' : last (p :: l) p = ps (S i)).
    { rewrite La. destruct (Nat.eqb_spec (nsteps p (ps (S i)) dp) 0) as [E0|]; [apply Z0; assumption|reflexivity]. }
    pose proof (tlist_error (yk i) dp e (ps i) (ps (S i)) (yk_cont i)
      (fun a b A1 A2 A3 A4 => He i a b Hi A1 A2 A3 A4) l p ltac:(lra) Ch ltac:(lra)) as T.
    rewrite La' in T. exact T.
  Qed.

  Variable Y : R -> R.
  Hypothesis HY : forall i x, (S i < K)%nat -> ps i < x < ps (S i) -> Y x = yk i x.

  Lemma Y_piece i a b : (S i < K)%nat -> ps i <= a -> a <= b -> b <= ps (S i) -> is_RInt Y a b (RInt (yk i) a b).
  Proof.
    intros Hi H1 H2 H3. apply (is_RInt_ext (V := R_NormedModule) (yk i)).
    - intros x Hx. rewrite Rmin_left, Rmax_right in Hx by assumption. symmetry. apply HY; [assumption|lra].
    - apply (RInt_correct (V := R_CompleteNormedModule)). apply cont_ex_RInt. apply yk_cont.
  Qed.

  Lemma Y_knots a n : (a + n < K)%nat -> exists I, is_RInt Y (ps a) (ps (a + n)%nat) I
    /\ forall e, step_error e -> Rabs (Jsum a n - I) <= e * (ps (a + n)%nat - ps a).
  Proof.
    induction n as [|n IH]; intros H.
    - rewrite Nat.add_0_r. exists 0. split; [apply (is_RInt_point (V := R_NormedModule))|]. intros e He. cbn [Jsum].
      rewrite Rminus_0_r, Rabs_R0. lra.
    - destruct (IH ltac:(lia)) as (I & HI & Herr).
      replace (a + S n)%nat with (S (a + n)) in * by lia. pose proof (Hinc (a + n)%nat ltac:(lia)).
      exists (I + RInt (yk (a + n)) (ps (a + n)%nat) (ps (S (a + n)))). split.
      + apply (is_RInt_Chasles (V := R_NormedModule) _ _ (ps (a + n)%nat)); [assumption|]. apply Y_piece; try lra. lia.
      + intros e He. specialize (Herr e He). pose proof (J_error e (a + n) (ps (a + n)%nat) He ltac:(lia) ltac:(lra)) as JE.
        cbn [Jsum]. replace (_ - _) with ((Jsum a n - I) + (J (a + n) (ps (a + n)%nat) - RInt (yk (a + n)) (ps (a + n)%nat) (ps (S (a + n))))) by ring.
        eapply Rle_trans; [apply Rabs_triang|]. lra.
  Qed.

  Lemma D_integral p0 p1 : ps 0%nat <= p0 -> p0 <= p1 -> p1 <= ps (K - 1)%nat ->
    exists I, is_RInt Y p0 p1 I /\ forall e W, 0 <= e -> step_error e -> spacing K ps W ->
      Rabs (D p0 p1 - I) <= e * (p1 - p0 + 2 * W).
  Proof.
    intros H0 H1 H2. pose proof (piece_mono p0 p1 H0 H1 H2) as PM.
    destruct (piece_spec p0 ltac:(lra)) as (A0 & B0 & _). destruct (piece_spec p1 ltac:(lra)) as (A1 & B1 & _).
    destruct (Y_knots (S (piece p0)) (piece p1 - piece p0) ltac:(lia)) as (I & HI & Herr).
    replace (S (piece p0) + (piece p1 - piece p0))%nat with (S (piece p1)) in * by lia.
    set (i0 := piece p0) in *. set (i1 := piece p1) in *.
    exists (RInt (yk i0) p0 (ps (S i0)) + I - RInt (yk i1) p1 (ps (S i1))). split.
    - replace (RInt (yk i0) p0 (ps (S i0)) + I - RInt (yk i1) p1 (ps (S i1)))
        with (RInt (yk i0) p0 (ps (S i0)) + I + - RInt (yk i1) p1 (ps (S i1))) by ring.
      apply (is_RInt_Chasles (V := R_NormedModule) _ _ (ps (S i1))).
      + apply (is_RInt_Chasles (V := R_NormedModule) _ _ (ps (S i0))); [|assumption]. apply Y_piece; try lra. lia.
      + apply (is_RInt_swap (V := R_NormedModule)). apply Y_piece; try lra. lia.
    - intros e W He0 He HW. specialize (Herr e He).
      pose proof (J_error e i0 p0 He A0 B0) as E0. pose proof (J_error e i1 p1 He A1 B1) as E1.
      unfold D. fold i0 i1.
      replace (_ - _) with ((J i0 p0 - RInt (yk i0) p0 (ps (S i0))) + (Jsum (S i0) (i1 - i0) - I)
        + - (J i1 p1 - RInt (yk i1) p1 (ps (S i1)))) by ring.
      eapply Rle_trans; [apply Rabs_triang|]. rewrite Rabs_Ropp.
      eapply Rle_trans; [apply Rplus_le_compat_r; apply Rabs_triang|].
      apply Rle_trans with (e * (p1 - p0 + 2 * (ps (S i1) - p1))); [lra|].
      apply Rmult_le_compat_l; [assumption|]. pose proof (HW i1 A1). lra.
  Qed.

  Lemma DD_integral p0 p1 : in_range K ps p0 -> in_range K ps p1 ->
    exists I, is_RInt Y p0 p1 I /\ forall e W, 0 <= e -> step_error e -> spacing K ps W ->
      Rabs (DD p0 p1 - I) <= e * (Rabs (p1 - p0) + 2 * W).
  Proof.
    intros [A0 B0] [A1 B1]. unfold DD. destruct (Rle_dec p0 p1) as [H|H].
    - destruct (D_integral p0 p1 A0 H B1) as (I & HI & HE). exists I. split; [assumption|].
      intros e W. rewrite (Rabs_right (p1 - p0)) by lra. apply HE.
    - destruct (D_integral p1 p0 A1 ltac:(lra) B0) as (I & HI & HE). exists (- I). split.
      + apply (is_RInt_swap (V := R_NormedModule)). assumption.
      + intros e W H1 H2 H3. rewrite (Rabs_left (p1 - p0)) by lra.
        replace (- D p1 p0 - - I) with (- (D p1 p0 - I)) by ring. rewrite Rabs_Ropp.
        replace (- (p1 - p0)) with (p0 - p1) by ring. apply HE; assumption.
  Qed.

  Lemma step_error_C2 M : smooth_pieces K ps Y M -> step_error (M * dp ^ 2 / 12).
  Proof.
    intros Hs i a b Hi H1 H2 H3 H4. destruct (Hs i Hi) as (q & q1 & q2 & Hq).
    assert (Heq : forall x, ps i <= x <= ps (S i) -> yk i x = q x).
    { assert (Hop : forall x, ps i < x < ps (S i) -> yk i x = q x).
      { intros x Hx. rewrite <- HY by assumption. apply (Hq x); [lra|assumption]. }
      assert (Hend : forall z, (z = ps i \/ z = ps (S i)) -> yk i z = q z).
      { intros z Hz. pose proof (Hinc i Hi) as Hlt.
        assert (Hcz : continuity_pt (fun x => yk i x - q x) z).
        { apply (continuity_pt_minus (yk i) q); [apply yk_cont|].
          apply continuity_pt_filterlim. apply (ex_derive_continuous (V := R_NormedModule)).
          exists (q1 z). apply Hq. lra. }
        destruct (Req_dec (yk i z - q z) 0) as [E|E]; [lra|]. exfalso.
        destruct (Hcz (Rabs (yk i z - q z)) (Rabs_pos_lt _ E)) as (al & Hal & Hd).
        set (h := Rmin (al / 2) ((ps (S i) - ps i) / 2)).
        assert (Hh : 0 < h) by (unfold h; apply Rmin_case; lra).
        assert (Hh1 : h <= al / 2) by apply Rmin_l. assert (Hh2 : h <= (ps (S i) - ps i) / 2) by apply Rmin_r.
        destruct Hz as [-> | ->].
        - specialize (Hd (ps i + h)). cbv beta in Hd. rewrite (Hop (ps i + h)) in Hd by lra.
          unfold dist in Hd. cbn in Hd. unfold R_dist in Hd.
          replace (q (ps i + h) - q (ps i + h) - (yk i (ps i) - q (ps i))) with (- (yk i (ps i) - q (ps i))) in Hd by ring.
          rewrite Rabs_Ropp in Hd. refine (Rlt_irrefl _ (Hd _)). split.
          + split; [exact I|]. lra.
          + replace (ps i + h - ps i) with h by ring. rewrite Rabs_right; lra.
        - specialize (Hd (ps (S i) - h)). cbv beta in Hd. rewrite (Hop (ps (S i) - h)) in Hd by lra.
          unfold dist in Hd. cbn in Hd. unfold R_dist in Hd.
          replace (q (ps (S i) - h) - q (ps (S i) - h) - (yk i (ps (S i)) - q (ps (S i)))) with (- (yk i (ps (S i)) - q (ps (S i)))) in Hd by ring.
          rewrite Rabs_Ropp in Hd. refine (Rlt_irrefl _ (Hd _)). split.
          + split; [exact I|]. lra.
          + replace (ps (S i) - h - ps (S i)) with (- h) by ring. rewrite Rabs_Ropp, Rabs_right; lra. }
      intros x Hx. destruct (Req_dec x (ps i)) as [->|N1]; [apply Hend; auto|].
      destruct (Req_dec x (ps (S i))) as [->|N2]; [apply Hend; auto|]. apply Hop. lra. }
    assert (HM : 0 <= M).
    { destruct (Hq a ltac:(lra)) as (_ & _ & Hb & _). pose proof (Rabs_pos (q2 a)). lra. }
    eapply Rle_trans.
    - apply (trap_step_C2 (yk i) q q1 q2 M a b H2 (yk_cont i)).
      + intros x Hx. apply Heq. lra.
      + intros x Hx. destruct (Hq x ltac:(lra)) as (X1 & X2 & X3 & _). auto.
    - replace (M * (b - a) ^ 3 / 12) with (M * ((b - a) ^ 2 * (b - a)) / 12) by field.
      replace (M * dp ^ 2 / 12 * (b - a)) with (M * (dp ^ 2 * (b - a)) / 12) by field.
      apply Rmult_le_compat_r; [lra|]. apply Rmult_le_compat_l; [assumption|].
      apply Rmult_le_compat_r; [lra|]. apply pow_incr. lra.
  Qed.
End Integral.

(** short enough steps *)
Lemma step_error_small K ps cS cT f g e :
  (forall i, (S i < K)%nat -> ps i < ps (S i)) ->
  (forall x, continuity_pt f x) -> (forall x, continuity_pt g x) -> 0 < e ->
  exists d, 0 < d /\ forall dp, dp <= d -> step_error K ps cS cT dp f g e.
Proof.
  intros Hinc Hf Hg He.
  assert (G : forall n, exists d, 0 < d /\ forall i a b, (i < n)%nat -> ps i <= a -> a <= b -> b <= ps (S i) -> b - a <= d ->
    Rabs ((b - a) * ((yk ps cS cT f g i b + yk ps cS cT f g i a) / 2) - RInt (yk ps cS cT f g i) a b) <= e * (b - a)).
  { induction n as [|n IHn]; [exists 1; split; [lra|]; intros; lia|]. destruct IHn as (d & Hd & IH).
    destruct (osc_small (yk ps cS cT f g n) (ps n) (ps (S n)) e (yk_cont ps cS cT f g Hf Hg n) He) as (d' & Hd' & Ho).
    exists (Rmin d d'). split; [apply Rmin_case; assumption|].
    pose proof (Rmin_l d d'). pose proof (Rmin_r d d').
    intros i a b Hi H1 H2 H3 H4. destruct (Nat.eq_dec i n) as [->|].
    - apply trap_step_osc; [assumption|apply yk_cont; assumption|]. intros x x' Hx Hx'.
      apply (Ho a b); try assumption. lra.
    - apply IH; try assumption; [lia|lra]. }
  destruct (G K) as (d & Hd & H). exists d. split; [assumption|].
  intros dp Hdp i a b Hi H1 H2 H3 H4. apply H; try assumption; [lia|lra].
Qed.
