(** * Static stability: slopes, memory, gradient of the objective *)
From Coq Require Import String ZArith Bool Reals Lra Lia List.
From Verif Require Import Num XR Res Arr ArrLemmas Nd NdLemmas XRlemmas M_lib M_ppinterp S_lib P_casts M_mixed_layer S_traj S_mixed_layer
  P_mixed_layer P_mixed_layer2 M_stability S_stability P_stability.
Import ListNotations.

(** ** Counting with interpolants *)
Lemma count_bottles (S T P : data) v s1 s2 n g f :
  wf (arr S) -> wf (arr T) -> wf (arr P) ->
  shape (arr S) = s1 ++ n :: s2 -> shape (arr T) = s1 ++ n :: s2 -> (shape (arr P) = s1 ++ n :: s2 \/ shape (arr P) = [n]) ->
  process_vert_dim v S = Ok (length s1) ->
  (forall pk p s t, exists ds dt, g pk p s t 1 = Ok (ds, dt) /\ not_inf ds /\ not_inf dt) ->
  (forall s t p, exists rs rt, f s t p = Ok (rs, rt) /\ not_inf rs /\ not_inf rt) ->
  exists c, count_unstable S T P (Some g) None (Some f) v = Ok c
    /\ number_of (fun x => let '(h1, h2, k) := x in valid s1 h1 /\ valid s2 h2 /\ k + 1 < n
         /\ exists s t p, cast_at (at_ (arr S)) n h1 h2 s /\ cast_at (at_ (arr T)) n h1 h2 t /\ cast_at (Px S P s1) n h1 h2 p /\ falling g f s t p k) c.
Proof.
  intros WS WT WP SS ST SP Hv Hg Hf.
  apply (count_whole S T P v s1 s2 n WS WT WP SS ST SP Hv (Some g) None (Some f) (unstable_grad g f)).
  - exists f. split; reflexivity.
  - intros h1 h2 k s t p H1 H2 Hk A B C.
    assert (G : forall l x, cast_at x n h1 h2 l -> exists u, nth_error l k = Some u /\ at0 l k = u).
    { intros l x [L _]. destruct (nth_error l k) as [u|] eqn:E; [|apply nth_error_None in E; lia]. exists u. split; [reflexivity|apply at0_nth; exact E]. }
    destruct (G s _ A) as (sk & E1 & F1). destruct (G t _ B) as (tk & E2 & F2). destruct (G p _ C) as (pk & E3 & F3).
    unfold unstable_grad. rewrite F1, F2, F3. destruct (Hg pk p s t) as (ds & dt & Eg & I1 & I2). destruct (Hf sk tk pk) as (rs & rt & Ef & I3 & I4).
    rewrite Eg. cbn [bind]. rewrite Ef. cbn [bind fst snd]. eexists. split; [reflexivity|].
    assert (Hfal : falling g f s t p k <-> exists ds' dt' rs' rt', ds = Fin ds' /\ dt = Fin dt' /\ rs = Fin rs' /\ rt = Fin rt' /\ (rs' * ds' + rt' * dt' < 0)%R).
    { split.
      - intros (a & b & c & d1 & d2 & r1 & r2 & X1 & X2 & X3 & X4 & X5 & X6). rewrite E1 in X1. rewrite E2 in X2. rewrite E3 in X3.
        injection X1 as <-. injection X2 as <-. injection X3 as <-. rewrite Eg in X4. rewrite Ef in X5. injection X4 as -> ->. injection X5 as -> ->.
        exists d1, d2, r1, r2. auto.
      - intros (d1 & d2 & r1 & r2 & -> & -> & -> & -> & H). exists sk, tk, pk, d1, d2, r1, r2. auto 10. }
    transitivity (falling g f s t p k).
    + rewrite Hfal. assert (No : forall X : Prop, ~ X -> (false = true <-> X)) by (intros X HX; split; [discriminate|contradiction]).
      destruct I1 as [-> | [d1 ->]].
      { transitivity (false = true); [|apply No; intros (?&?&?&?&X&_); discriminate]. destruct rs as [?| | |], (mul rt dt) as [?| | |]; reflexivity. }
      destruct I3 as [-> | [r1 ->]].
      { transitivity (false = true); [|apply No; intros (?&?&?&?&_&_&X&_); discriminate]. destruct (mul rt dt) as [?| | |]; reflexivity. }
      destruct I2 as [-> | [d2 ->]].
      { transitivity (false = true); [|apply No; intros (?&?&?&?&_&X&_); discriminate]. destruct rt as [?| | |]; reflexivity. }
      destruct I4 as [-> | [r2 ->]].
      { transitivity (false = true); [|apply No; intros (?&?&?&?&_&_&_&X&_); discriminate]. reflexivity. }
      cbn [mul add ltb lit xrNum xr_mul xr_add xr_ltb]. rewrite Rlit_0. split.
      * intros H. exists d1, d2, r1, r2. destruct (Rltb_spec (r1 * d1 + r2 * d2) 0); [auto 10|discriminate].
      * intros (? & ? & ? & ? & X1 & X2 & X3 & X4 & H). injection X1 as <-. injection X2 as <-. injection X3 as <-. injection X4 as <-. apply Rltb_true. exact H.
    + split.
      * intros H. exists s, t, p. auto.
      * intros (s' & t' & p' & A' & B' & C' & H). rewrite (cast_at_unique _ _ _ _ _ _ A A'), (cast_at_unique _ _ _ _ _ _ B B'), (cast_at_unique _ _ _ _ _ _ C C'). exact H.
Qed.

(** ** Memory *)
Section Memory.
  Context {F : Type}.

  Lemma offset_contiguous sh : forall st ix, length st = length sh -> contiguous sh st = true -> valid sh ix -> offset st ix = Z.of_nat (ravel sh ix).
  Proof.
    induction sh as [|n r IH]; intros [|s q] ix L H V; try discriminate; inversion V as [|? i ? j Hi Hj]; subst; [reflexivity|].
    cbn [contiguous] in H. apply andb_true_iff in H. destruct H as [H1 H2]. cbn [offset ravel]. rewrite (IH q j) by (simpl in L; auto; lia).
    apply orb_true_iff in H2. destruct H2 as [H2|H2].
    - apply Nat.eqb_eq in H2. subst n. assert (i = 0) as -> by lia. simpl. lia.
    - apply Z.eqb_eq in H2. subst s. lia.
  Qed.

  Lemma offset_app st1 : forall ix1 st2 ix2, length ix1 = length st1 -> offset (st1 ++ st2) (ix1 ++ ix2) = (offset st1 ix1 + offset st2 ix2)%Z.
  Proof.
    induction st1 as [|s q IH]; intros [|i j] st2 ix2 L; try discriminate; [reflexivity|]. simpl. rewrite IH by (simpl in L; lia). lia.
  Qed.

  Variables (a : @ndarray F) (x : nd F) (s1 s2 : list nat) (n : nat).
  Hypothesis Hrep : represents a x.
  Hypothesis Hx : shape x = s1 ++ n :: s2.
  Hypothesis Wx : wf x.

  Lemma remove_mid {A} (l1 l2 : list A) c d : remove_at (length l1) (l1 ++ c :: l2) ++ [nth (length l1) (l1 ++ c :: l2) d] = l1 ++ l2 ++ [c].
  Proof using.
    unfold remove_at. rewrite firstn_app, Nat.sub_diag, firstn_all, app_nil_r.
    rewrite skipn_app, (skipn_all2 l1) by lia. replace (S (length l1) - length l1) with 1 by lia. cbn [skipn app].
    rewrite app_nth2 by lia. rewrite Nat.sub_diag. cbn [nth]. rewrite <- app_assoc. reflexivity.
  Qed.

  Lemma strides_split : exists t1 t t2, strides a = t1 ++ t :: t2 /\ length t1 = length s1 /\ length t2 = length s2.
  Proof.
    destruct Hrep as (Hd & Hs & _). rewrite Hd, Hx, app_length in Hs. simpl in Hs.
    exists (firstn (length s1) (strides a)). destruct (skipn (length s1) (strides a)) as [|t t2] eqn:E.
    - exfalso. assert (length (skipn (length s1) (strides a)) = 0) by (rewrite E; reflexivity). rewrite skipn_length in H. lia.
    - exists t, t2. rewrite <- E, firstn_skipn. split; [reflexivity|]. split; [rewrite firstn_length; lia|].
      assert (length (skipn (length s1) (strides a)) = S (length t2)) by (rewrite E; reflexivity). rewrite skipn_length in H. lia.
  Qed.

  (** the rearranged view has the vertical dimension last, and each element at the same address *)
  Lemma rearranged_spec : dimens (rearranged a (length s1)) = s1 ++ s2 ++ [n]
    /\ length (strides (rearranged a (length s1))) = length (s1 ++ s2 ++ [n])
    /\ start (rearranged a (length s1)) = start a
    /\ is_f64 (rearranged a (length s1)) = is_f64 a
    /\ forall h1 k h2, valid s1 h1 -> valid s2 h2 -> k < n ->
         address a (h1 ++ k :: h2) = (start a + offset (strides (rearranged a (length s1))) (h1 ++ h2 ++ [k]))%Z.
  Proof.
    destruct strides_split as (t1 & t & t2 & Es & L1 & L2). destruct Hrep as (Hd & Hs & _). rewrite Hx in Hd.
    assert (Hlen : length (dimens a) = S (length s1 + length s2)) by (rewrite Hd, app_length; simpl; lia).
    unfold rearranged. rewrite Hlen. destruct (Nat.ltb 1 (S (length s1 + length s2)) && negb (Nat.eqb (length s1) (S (length s1 + length s2) - 1))) eqn:Ec.
    - unfold move_last. cbn [dimens strides start is_f64]. rewrite Hd, Es. rewrite remove_mid. rewrite <- L1, remove_mid.
      split; [reflexivity|]. split; [rewrite !app_length; simpl; lia|]. split; [reflexivity|]. split; [reflexivity|].
      intros h1 k h2 V1 V2 Hk. unfold address. rewrite Es. apply valid_length in V1, V2. rewrite !offset_app by congruence. simpl. lia.
    - assert (s2 = []) as ->.
      { destruct s2 as [|z l]; [reflexivity|]. exfalso. apply andb_false_iff in Ec. destruct Ec as [Ec|Ec].
        - apply Nat.ltb_ge in Ec. simpl in Ec. lia.
        - apply negb_false_iff, Nat.eqb_eq in Ec. simpl in Ec. lia. }
      split; [exact Hd|]. split; [rewrite Hs, Hd; reflexivity|]. split; [reflexivity|]. split; [reflexivity|].
      intros h1 k h2 V1 V2 Hk. inversion V2. reflexivity.
  Qed.

  Variable y : nd F.
  Hypothesis Hy : shape y = s1 ++ s2 ++ [n].
  Hypothesis Wy : wf y.

  Lemma in_place : shared a (length s1) = true ->
    forall h1 k h2, valid s1 h1 -> k < n -> valid s2 h2 -> value (after a (length s1) y) (h1 ++ k :: h2) = at_ y (h1 ++ h2 ++ [k]).
  Proof.
    intros Hsh. destruct rearranged_spec as (Rd & Rs & Rst & _ & Radr). unfold shared in Hsh. apply andb_true_iff in Hsh. destruct Hsh as [Hf Hc].
    assert (Hsh : shared a (length s1) = true) by (unfold shared; rewrite Hf, Hc; reflexivity).
    assert (Hadr : forall h1 k h2, valid s1 h1 -> k < n -> valid s2 h2 ->
        address a (h1 ++ k :: h2) = (start a + Z.of_nat (ravel (s1 ++ s2 ++ [n]) (h1 ++ h2 ++ [k])))%Z).
    { intros h1 k h2 V1 Hk V2. rewrite Radr by assumption. f_equal.
      assert (V : valid (s1 ++ s2 ++ [n]) (h1 ++ h2 ++ [k])) by (apply valid_app; [exact V1|apply valid_snoc; assumption]).
      apply offset_contiguous; [rewrite Rs; reflexivity| |exact V].
      unfold c_contiguous in Hc. rewrite Rd in Hc. apply orb_true_iff in Hc. destruct Hc as [Hc|Hc]; [|exact Hc]. exfalso.
      apply existsb_exists in Hc. destruct Hc as (z & Hin & Hz). apply Nat.eqb_eq in Hz. subst z.
      clear - V Hin. induction V as [|u w l l' H V IH]; [contradiction|]. destruct Hin as [->|Hin]; [lia|auto]. }
    assert (Hval : forall h1 k h2, valid s1 h1 -> k < n -> valid s2 h2 -> exists u, value a (h1 ++ k :: h2) = Some u).
    { intros h1 k h2 V1 Hk V2. assert (V : valid (shape x) (h1 ++ k :: h2)) by (rewrite Hx; apply valid_app; [exact V1|constructor; assumption]).
      destruct Hrep as (_ & _ & Hr). rewrite (Hr _ V). apply wf_at; assumption. }
    assert (Hidx : forall i, i < prod (s1 ++ s2 ++ [n]) -> exists h1 k h2, valid s1 h1 /\ k < n /\ valid s2 h2 /\ ravel (s1 ++ s2 ++ [n]) (h1 ++ h2 ++ [k]) = i).
    { intros i Hi. destruct (nth_error (all_idx (s1 ++ s2 ++ [n])) i) as [ix|] eqn:E; [|apply nth_error_None in E; rewrite length_all_idx in E; lia].
      assert (V : valid (s1 ++ s2 ++ [n]) ix) by (apply in_all_idx; eapply nth_error_In; eassumption).
      assert (Hr : ravel (s1 ++ s2 ++ [n]) ix = i).
      { apply (NoDup_nth_error (all_idx (s1 ++ s2 ++ [n]))); [apply NoDup_all_idx|rewrite length_all_idx; apply ravel_lt; exact V|].
        rewrite nth_error_all_idx by exact V. symmetry. exact E. }
      apply valid_app_inv in V. destruct V as (h1 & h3 & -> & V1 & V3). apply valid_snoc_inv in V3. destruct V3 as (h2 & k & -> & V2 & Hk).
      exists h1, k, h2. auto. }
    intros h1 k h2 V1 Hk V2.
    assert (V : valid (s1 ++ s2 ++ [n]) (h1 ++ h2 ++ [k])) by (apply valid_app; [exact V1|apply valid_snoc; assumption]).
    pose proof (ravel_lt _ _ V) as Hr. set (r := ravel (s1 ++ s2 ++ [n]) (h1 ++ h2 ++ [k])) in *. set (N := prod (s1 ++ s2 ++ [n])) in *.
    assert (H0 : (0 <= start a)%Z).
    { destruct (Hidx 0 ltac:(lia)) as (a1 & b & c & A1 & A2 & A3 & A4). destruct (Hval a1 b c A1 A2 A3) as [u Hu].
      unfold value in Hu. rewrite (Hadr a1 b c A1 A2 A3), A4 in Hu. destruct (Z.ltb_spec (start a + Z.of_nat 0) 0); [discriminate|lia]. }
    assert (H1 : Z.to_nat (start a) + N <= length (buf a)).
    { destruct (Hidx (N - 1) ltac:(lia)) as (a1 & b & c & A1 & A2 & A3 & A4). destruct (Hval a1 b c A1 A2 A3) as [u Hu].
      unfold value in Hu. rewrite (Hadr a1 b c A1 A2 A3), A4 in Hu. destruct (Z.ltb_spec (start a + Z.of_nat (N - 1)) 0); [discriminate|].
      apply nth_error_lt in Hu. lia. }
    unfold after. rewrite Hsh. unfold value. cbn [buf].
    change (address (mk_arr (firstn (Z.to_nat (start a)) (buf a) ++ elems y ++ skipn (Z.to_nat (start a) + length (elems y)) (buf a)) (start a) (dimens a) (strides a) (is_f64 a)) (h1 ++ k :: h2))
      with (address a (h1 ++ k :: h2)).
    rewrite (Hadr h1 k h2 V1 Hk V2). fold r. destruct (Z.ltb_spec (start a + Z.of_nat r) 0); [lia|].
    assert (Le : length (elems y) = N) by (rewrite Wy, Hy; reflexivity).
    assert (Lf : length (firstn (Z.to_nat (start a)) (buf a)) = Z.to_nat (start a)) by (rewrite firstn_length; lia).
    rewrite nth_error_app2 by lia. rewrite Lf. replace (Z.to_nat (start a + Z.of_nat r) - Z.to_nat (start a)) with r by lia.
    rewrite nth_error_app1 by lia. unfold at_. rewrite Hy. reflexivity.
  Qed.

  Lemma not_shared : shared a (length s1) = false -> after a (length s1) y = a.
  Proof using. intros H. unfold after. rewrite H. reflexivity. Qed.

  Lemma contiguous_c sh : contiguous sh (c_strides sh) = true.
  Proof using. induction sh as [|m r IH]; [reflexivity|]. simpl. rewrite IH, Z.eqb_refl, orb_true_r. reflexivity. Qed.

  Lemma contiguous_suffix sh1 : forall st1 sh2 st2, length st1 = length sh1 -> contiguous (sh1 ++ sh2) (st1 ++ st2) = true -> contiguous sh2 st2 = true.
  Proof using.
    induction sh1 as [|m r IH]; intros [|s q] sh2 st2 L H; try discriminate; [exact H|]. simpl in H. apply andb_true_iff in H. destruct H as [H _].
    apply (IH q); [simpl in L; lia|exact H].
  Qed.

  Lemma c_strides_app l1 l2 : exists t1, c_strides (l1 ++ l2) = t1 ++ c_strides l2 /\ length t1 = length l1.
  Proof using.
    induction l1 as [|m r (t1 & E & L)]; [exists []; auto|]. simpl. exists (Z.of_nat (prod (r ++ l2)) :: t1). rewrite E. simpl. auto.
  Qed.

  (** arrays in C order: mutated in place if the vertical dimension is last, and not if another
      dimension with at least two elements comes after it *)
  Lemma c_order_shared : is_f64 a = true -> strides a = c_strides (dimens a) ->
    (s2 = [] -> shared a (length s1) = true)
    /\ (2 <= n -> 2 <= prod s2 -> prod s1 <> 0 -> shared a (length s1) = false).
  Proof using Hrep Hx.
    clear Wy Hy y Wx. intros Hf Hs. destruct rearranged_spec as (Rd & Rs & Rst & Rf & _). destruct Hrep as (Hd & _ & _). rewrite Hx in Hd. split.
    - intros ->. unfold shared. rewrite Rf, Hf. simpl. unfold c_contiguous. rewrite Rd.
      assert (E : rearranged a (length s1) = a).
      { unfold rearranged. rewrite Hd, app_length. cbn [length]. replace (length s1 + 1 - 1) with (length s1) by lia. rewrite Nat.eqb_refl, andb_false_r. reflexivity. }
      rewrite E, Hs, Hd. cbn [app]. rewrite contiguous_c. apply orb_true_r.
    - intros Hn H2 H1. unfold shared. rewrite Rf, Hf. simpl. unfold c_contiguous. rewrite Rd. apply orb_false_iff. split.
      + apply not_true_iff_false. intros C. apply existsb_exists in C. destruct C as (z & Hin & Hz). apply Nat.eqb_eq in Hz. subst z.
        assert (Hp : prod (s1 ++ s2 ++ [n]) = 0).
        { clear - Hin. induction (s1 ++ s2 ++ [n]) as [|u l IH]; [contradiction|]. destruct Hin as [->|Hin]; simpl; [reflexivity|rewrite IH by exact Hin; lia]. }
        rewrite !prod_app in Hp. cbn [prod] in Hp. apply Nat.mul_eq_0 in Hp. destruct Hp as [Hp|Hp]; [contradiction|]. apply Nat.mul_eq_0 in Hp. lia.
      + apply not_true_iff_false. intros C.
        assert (E : exists t1, strides (rearranged a (length s1)) = t1 ++ [Z.of_nat (prod s2)] /\ length t1 = length (s1 ++ s2)).
        { unfold rearranged. assert (Ec : Nat.ltb 1 (length (dimens a)) && negb (Nat.eqb (length s1) (length (dimens a) - 1)) = true).
          { rewrite Hd, app_length. cbn [length]. destruct s2 as [|z l]; [simpl in H2; lia|]. cbn [length].
            apply andb_true_iff. split; [apply Nat.ltb_lt; lia|]. apply negb_true_iff, Nat.eqb_neq. lia. }
          rewrite Ec. unfold move_last. cbn [strides]. rewrite Hs, Hd. destruct (c_strides_app s1 (n :: s2)) as (t1 & Et & Lt). rewrite Et. cbn [c_strides].
          rewrite <- Lt, remove_mid. exists (t1 ++ c_strides s2). split; [apply app_assoc|]. rewrite !app_length, Lt. f_equal.
          clear. induction s2 as [|u l IH]; [reflexivity|]. simpl. rewrite IH. reflexivity. }
        destruct E as (t1 & Et & Lt). rewrite Et, app_assoc in C. apply contiguous_suffix in C; [|exact Lt].
        cbn [contiguous prod] in C. cbn [andb] in C. apply orb_true_iff in C. destruct C as [C|C]; [apply Nat.eqb_eq in C; lia|apply Z.eqb_eq in C; lia].
  Qed.
End Memory.

(** ** The derivative given to the optimiser *)
Section Gradient.
  Local Open Scope R_scope.

  Definition sumsq (w : R) (l : list (R * R)) : R := fold_right (fun d a => w * fst d * fst d + snd d * snd d + a) 0 l.

  Lemma fold_sumsq w l : forall a, fold_left Rplus (map (fun d : R * R => w * fst d * fst d + snd d * snd d) l) a = a + sumsq w l.
  Proof. induction l as [|d l IH]; intros a; simpl; [lra|]. rewrite IH. lra. Qed.

  Lemma objective_R w dx : objective w dx = sumsq w (combine (firstn (Nat.div (length dx) 2) dx) (skipn (Nat.div (length dx) 2) dx)).
  Proof. unfold objective. cbn [add mul lit RNum]. rewrite fold_sumsq, Rlit_0. lra. Qed.

  Lemma sumsq_fst w u : forall j a b, (j < length a)%nat -> length a = length b ->
    sumsq w (combine (upd a j u) b) = sumsq w (combine (upd a j 0) b) + w * u * u.
  Proof.
    induction j as [|j IH]; intros [|x a] [|y b] Hj L; simpl in *; try lia; [ring|]. rewrite IH by lia. ring.
  Qed.
  Lemma sumsq_snd w u : forall j a b, (j < length b)%nat -> length a = length b ->
    sumsq w (combine a (upd b j u)) = sumsq w (combine a (upd b j 0)) + u * u.
  Proof.
    induction j as [|j IH]; intros [|x a] [|y b] Hj L; simpl in *; try lia; [ring|]. rewrite IH by lia. ring.
  Qed.

  Lemma firstn_upd_lt {A} (l : list A) n j u : (j < n)%nat -> firstn n (upd l j u) = upd (firstn n l) j u /\ skipn n (upd l j u) = skipn n l.
  Proof. revert n j. induction l as [|x l IH]; intros [|n] [|j] H; simpl; try lia; try (split; reflexivity). destruct (IH n j ltac:(lia)) as [-> ->]. auto. Qed.
  Lemma firstn_upd_ge {A} (l : list A) n j u : (n <= j)%nat -> firstn n (upd l j u) = firstn n l /\ skipn n (upd l j u) = upd (skipn n l) (j - n) u.
  Proof. revert n j. induction l as [|x l IH]; intros [|n] [|j] H; simpl; try lia; try (split; reflexivity). destruct (IH n j ltac:(lia)) as [-> ->]. auto. Qed.

  Lemma quad_deriv A c x : derivable_pt_lim (fun u => A + c * u * u) x (2 * x * c).
  Proof.
    replace (2 * x * c) with (0 + c * (1 * x + x * 1)) by ring. apply derivable_pt_lim_plus; [apply derivable_pt_lim_const|].
    replace (fun u => c * u * u) with (mult_real_fct c (id * id)%F).
    - apply derivable_pt_lim_scal, derivable_pt_lim_mult; apply derivable_pt_lim_id.
    - apply FunctionalExtensionality.functional_extensionality. intros u. unfold mult_real_fct, mult_fct, id. ring.
  Qed.

  Lemma jac_gradient w dx n j : length dx = (2 * n)%nat -> (j < 2 * n)%nat ->
    derivable_pt_lim (fun u => objective w (upd dx j u)) (nth j dx 0) (nth j (jac w dx) 0).
  Proof.
    intros L Hj. assert (Hd : Nat.div (2 * n) 2 = n) by (rewrite Nat.mul_comm, Nat.div_mul; lia).
    assert (E : forall u, objective w (upd dx j u) = objective w (upd dx j 0) + (if Nat.ltb j n then w else 1) * u * u).
    { intros u. rewrite !objective_R, !length_upd, L, Hd. destruct (Nat.ltb_spec j n) as [H|H].
      - destruct (firstn_upd_lt dx n j u H) as [-> ->]. destruct (firstn_upd_lt dx n j 0 H) as [-> ->].
        rewrite sumsq_fst; [reflexivity|rewrite firstn_length; lia|rewrite firstn_length, skipn_length; lia].
      - destruct (firstn_upd_ge dx n j u H) as [-> ->]. destruct (firstn_upd_ge dx n j 0 H) as [-> ->].
        rewrite sumsq_snd; [ring|rewrite skipn_length; lia|rewrite firstn_length, skipn_length; lia]. }
    assert (Ej : nth j (jac w dx) 0 = 2 * nth j dx 0 * (if Nat.ltb j n then w else 1)).
    { unfold jac. rewrite L, Hd. cbn [mul lit RNum]. rewrite Rlit_0.
      assert (Ed : nth_error dx j = Some (nth j dx 0)) by (apply nth_error_nth'; lia).
      apply nth_error_nth_iff. destruct (Nat.ltb_spec j n) as [H|H].
      - rewrite nth_error_app1 by (rewrite map_length, firstn_length, map_length; lia). rewrite nth_error_map, nth_error_firstn, nth_error_map, Ed by exact H. reflexivity.
      - rewrite nth_error_app2 by (rewrite map_length, firstn_length, map_length; lia). rewrite map_length, firstn_length, map_length, nth_error_skipn.
        replace (n + (j - Nat.min n (length dx)))%nat with j by lia. rewrite nth_error_map, Ed. cbn [option_map]. f_equal. ring. }
    rewrite Ej. eapply derivable_pt_lim_ext; [intros u; symmetry; apply E|]. apply quad_deriv.
  Qed.
End Gradient.
