(** * omega_surf: the mixed layer given by the arguments of mixed_layer, and pins that are rejected *)
From Coq Require Import String ZArith Bool List Lia Arith.
From Verif Require Import Num XR Res Arr ArrLemmas Nd NdLemmas M_graph M_lib M_make_pp M_eos_base M_eostools M_mixed_layer M_ntp M_ppinterp M_vertsolve M_omega
  M_surfaces S_lib S_omega S_mixed_layer S_surfaces P_casts P_mixed_layer P_mixed_layer2 P_surfaces.
Import ListNotations.

Section Any.
  Context {F : Type} {Nm : Num F}.
  Local Open Scope nat_scope.

  Lemma mapM_nth {A B} (g g' : A -> res B) l l' : length l = length l' ->
    (forall i a b, nth_error l i = Some a -> nth_error l' i = Some b -> g a = g' b) -> mapM g l = mapM g' l'.
  Proof.
    revert l'. induction l as [|a l IH]; intros [|b l'] HL H; cbn [length] in HL; try discriminate; [reflexivity|].
    cbn [mapM]. rewrite (H 0 a b eq_refl eq_refl). rewrite (IH l'); [reflexivity|lia|]. intros i. exact (H (S i)).
  Qed.
  Lemma mapM_nth2 {A A' B} (g : A -> res B) (g' : A' -> res B) l l' : length l = length l' ->
    (forall i a b, nth_error l i = Some a -> nth_error l' i = Some b -> g a = g' b) -> mapM g l = mapM g' l'.
  Proof.
    revert l'. induction l as [|a l IH]; intros [|b l'] HL H; cbn [length] in HL; try discriminate; [reflexivity|].
    cbn [mapM]. rewrite (H 0 a b eq_refl eq_refl). rewrite (IH l'); [reflexivity|lia|]. intros i. exact (H (S i)).
  Qed.

  (** mixed_layer of data with vertical axis v, by columns *)
  Lemma mixed_layer_columns (S T P : @data F) v s1 n s2 c eos grav rho_c d r b i : water_columns S T P v s1 n s2 c ->
    mixed_layer S T P eos grav rho_c d r b i v =
    let! f := make_eos sdiv eos grav rho_c in
    let! nm := make_pp i "u" "interp" true 1 in
    buildM (s1 ++ s2) (fun h => mixed_layer_1 (vectorized f) (M_mixed_layer.interp_named nm) d r b (fst (fst (c h))) (snd (fst (c h))) (snd (c h))).
  Proof.
    intros Hw. assert (Hw' : water_columns S T P (VInt (Z.of_nat (length s1))) s1 n s2 c).
    { destruct Hw as [H1 H2 H3 [[Hv1 Hv2] Hv3] H5 H6]. assert (HX : forall X : @data F, shape (arr X) = s1 ++ n :: s2 -> axis_index (ndim (arr X)) (length s1) (Z.of_nat (length s1))).
      { intros X E. split; [unfold ndim; rewrite E, app_length; cbn [length]; lia|left; reflexivity]. }
      constructor; trivial. split; [split|].
      - intros ds E. destruct (Hv1 ds E) as (A & B & nm & C & D & _). split; [exact A|]. split; [exact B|]. exists nm. split; [exact C|]. split; [exact D|].
        right. eexists. split; [reflexivity|]. apply HX. apply H1.
      - intros E. eexists. split; [reflexivity|]. apply HX. apply H1.
      - intros ds E. destruct (Hv3 ds E) as (A & B & nm & C & D & _). split; [exact A|]. split; [exact B|]. exists nm. split; [exact C|]. split; [exact D|].
        right. eexists. split; [reflexivity|]. apply HX. apply H2. }
    unfold mixed_layer. destruct (make_eos sdiv eos grav rho_c) as [f|e]; [|reflexivity]. cbn [bind].
    destruct (make_pp i "u" "interp" true 1) as [nm|e]; [|reflexivity]. cbn [bind].
    assert (Hv : process_vert_dim v S = Ok (length s1)) by (apply vertical_process; apply (wc_v _ _ _ _ _ _ _ _ Hw)).
    rewrite Hv. cbn [bind]. destruct (columns_ok S T P _ s1 n s2 c Hw') as ([[s t] p] & -> & E). cbn [bind].
    unfold columns_of in E. destruct (list_eq_dec _ _ _) as [_|]; [|discriminate]. destruct (list_eq_dec _ _ _) as [_|]; [|discriminate].
    destruct (rev (shape s)) as [|n' rh]; [discriminate|]. injection E as E1 E2 ->. rewrite E1.
    unfold buildM. f_equal. apply mapM_nth; [reflexivity|]. intros j h h' Hj Hj'. rewrite Hj in Hj'. injection Hj' as <-.
    rewrite E1 in E2. assert (E3 := f_equal (fun l => nth_error l j) E2). cbn beta in E3. rewrite !nth_error_map, Hj in E3. cbn [option_map] in E3.
    injection E3 as E3. rewrite <- E3. reflexivity.
  Qed.

  (** np.reshape(X, (N, -1)) *)
  Definition flat_column (sh : list nat) (c : list nat -> list F * list F * list F) (h : list nat) : list F * list F * list F :=
    match h with [i] => nth i (map c (all_idx sh)) ([], [], []) | _ => ([], [], []) end.

  Lemma flat_columns (S T P : @data F) v s1 n s2 c s t p : water_columns S T P v s1 n s2 c -> process_casts S T P v = Ok (s, t, p) ->
    water_columns (flat_casts (prod (s1 ++ s2)) n s) (flat_casts (prod (s1 ++ s2)) n t) (flat_casts (prod (s1 ++ s2)) n p) (VInt (-1))
      [prod (s1 ++ s2)] n [] (flat_column (s1 ++ s2) c).
  Proof.
    intros Hw Ec. pose proof (columns_ok S T P v s1 n s2 c Hw) as (stp & Ec' & Ecol). rewrite Ec in Ec'. injection Ec' as <-.
    destruct Hw as [[WS SS] [WT ST] Hn [Hv Hv'] [WP HP] _].
    assert (SP : shape (arr P) = s1 ++ n :: s2 \/ shape (arr P) = [n]) by (destruct HP as [[E _]|[E _]]; [left|right]; exact E).
    destruct (process_casts_ok S T P v s1 n s2 WS WT WP SS ST (vertical_process _ _ _ Hv) SP) as (s' & t' & p' & Ec' & Ls & Lt & Lp).
    rewrite Ec in Ec'. injection Ec' as <- <- <-. destruct Ls as (ES & FS & _), Lt as (ET & FT & _), Lp as (EP & FP & _).
    unfold columns_of in Ecol. rewrite ES, ET, EP in Ecol. destruct (list_eq_dec _ _ _) as [_|]; [|discriminate].
    rewrite app_assoc, rev_app_distr in Ecol. cbn [rev app] in Ecol. rewrite rev_involutive in Ecol. injection Ecol as Ecol.
    assert (HC : forall h, valid (s1 ++ s2) h -> flat_column (s1 ++ s2) c [ravel (s1 ++ s2) h] = (M_mixed_layer.column s n h, M_mixed_layer.column t n h, M_mixed_layer.column p n h)).
    { intros h V. unfold flat_column. rewrite <- Ecol. apply nth_error_nth. rewrite nth_error_map, nth_error_all_idx by exact V. reflexivity. }
    assert (HW : forall a : nd F, shape a = s1 ++ s2 ++ [n] -> wf a -> wf (arr (flat_casts (prod (s1 ++ s2)) n a))
      /\ forall i, i < prod (s1 ++ s2) -> exists h, valid (s1 ++ s2) h /\ ravel (s1 ++ s2) h = i
         /\ cast_at (at_ (arr (flat_casts (prod (s1 ++ s2)) n a))) n [i] [] (M_mixed_layer.column a n h)).
    { intros a Ea Fa. unfold wf in Fa. rewrite Ea, app_assoc, prod_app in Fa. cbn [prod] in Fa. split.
      - unfold wf, flat_casts. cbn [arr shape elems prod]. lia.
      - intros i Hi. destruct (ravel_surj _ i Hi) as (h & V & <-). exists h. split; [exact V|]. split; [reflexivity|]. unfold M_mixed_layer.column.
        split; [rewrite map_length, seq_length; reflexivity|]. intros k Hk.
        rewrite nth_error_map, (nth_error_nth' _ 0) by (rewrite seq_length; exact Hk). rewrite seq_nth by exact Hk. cbn [option_map plus].
        unfold at_, getd. rewrite Ea, app_assoc, ravel_snoc by exact V. cbn [flat_casts arr shape elems app ravel prod].
        symmetry. replace (ravel (s1 ++ s2) h * (n * 1) + (k * 1 + 0)) with (ravel (s1 ++ s2) h * n + k) by lia. apply nth_error_nth'.
        rewrite Fa. pose proof (ravel_lt _ _ V). nia. }
    assert (HV : forall h1 : list nat, valid [prod (s1 ++ s2)] h1 -> exists i, h1 = [i] /\ i < prod (s1 ++ s2)).
    { intros h1 V. inversion V as [|? i ? h' Hi V']; subst. inversion V'; subst. eauto. }
    assert (H0 : forall h2, valid [] h2 -> h2 = []) by (intros h2 V; inversion V; reflexivity).
    destruct (HW s ES FS) as [W1 C1], (HW t ET FT) as [W2 C2], (HW p EP FP) as [W3 C3].
    constructor; try (split; [assumption|reflexivity]).
    - exact Hn.
    - split; [split|]; intros ds; [discriminate| |discriminate]. exists (-1)%Z. split; [reflexivity|]. split; [cbn; lia|]. right. reflexivity.
    - split; [assumption|]. left. split; [reflexivity|]. intros h1 h2 V1 V2. destruct (HV _ V1) as (i & -> & Hi). rewrite (H0 _ V2).
      destruct (C3 i Hi) as (h & V & E & G). cbn [app]. rewrite <- E, (HC h V). cbn [snd]. rewrite E. exact G.
    - intros h1 h2 V1 V2. destruct (HV _ V1) as (i & -> & Hi). rewrite (H0 _ V2). cbn [app].
      destruct (C1 i Hi) as (h & V & E & G). destruct (C2 i Hi) as (h' & V' & E' & G').
      split; [rewrite <- E, (HC h V), E; exact G|rewrite <- E', (HC h' V'), E'; exact G'].
  Qed.

  Lemma mixed_layer_flat (S T P : @data F) v s1 n s2 c s t p eos grav rho_c eos' grav' rho_c' f d r b i :
    water_columns S T P v s1 n s2 c -> process_casts S T P v = Ok (s, t, p) -> make_eos sdiv eos grav rho_c = Ok f -> make_eos sdiv eos' grav' rho_c' = Ok f ->
    forall ml, mixed_layer S T P eos grav rho_c d r b i v = Ok ml ->
    exists ml', mixed_layer (flat_casts (prod (s1 ++ s2)) n s) (flat_casts (prod (s1 ++ s2)) n t) (flat_casts (prod (s1 ++ s2)) n p)
      eos' grav' rho_c' d r b i (VInt (-1)) = Ok ml' /\ elems ml' = elems ml.
  Proof.
    intros Hw Ec Ef Ef' ml Hml. rewrite (mixed_layer_columns _ _ _ _ _ _ _ _ _ _ _ _ _ _ _ Hw), Ef in Hml. cbn [bind] in Hml.
    rewrite (mixed_layer_columns _ _ _ _ _ _ _ _ _ _ _ _ _ _ _ (flat_columns _ _ _ _ _ _ _ _ _ _ _ Hw Ec)).
    rewrite Ef'. cbn [bind]. destruct (make_pp i "u" "interp" true 1) as [nm|e]; [|discriminate]. cbn [bind] in *.
    unfold buildM in *. destruct (mapM _ (all_idx (s1 ++ s2))) as [l|e] eqn:El; [|discriminate]. injection Hml as <-.
    erewrite mapM_nth2; [rewrite El; eexists; split; reflexivity| |].
    - rewrite !length_all_idx, app_nil_r. cbn [prod]. lia.
    - intros j h h' Hh Hh'. cbn beta. pose proof (nth_error_In _ _ Hh') as Hi'. apply in_all_idx in Hi'.
      pose proof (nth_error_lt _ _ _ Hh) as Hj. rewrite length_all_idx, app_nil_r in Hj. cbn [prod] in Hj. rewrite Nat.mul_1_r in Hj.
      assert (E : h = [j]).
      { pose proof (nth_error_all_idx [prod (s1 ++ s2)] [j] ltac:(repeat constructor; exact Hj)) as E.
        rewrite app_nil_r in Hh. cbn [ravel prod] in E. rewrite Nat.mul_1_r, Nat.add_0_r, Hh in E. congruence. }
      subst h. unfold flat_column. erewrite nth_error_nth; [reflexivity|]. rewrite nth_error_map, Hh'. reflexivity.
  Qed.

  Variable spsolve : nat -> (nat -> nat -> F) -> list F -> list F.
  Variable lsqr : nat -> nat -> (nat -> nat -> F) -> list F -> list F.
  Variables (junk0 : F) (fuel loop_fuel : nat) (junk : Z -> list nat) (junk_p junk_i : list nat).
  Notation omega_surf_pub := (omega_surf_pub spsolve lsqr junk0 fuel loop_fuel junk junk_p junk_i).

  Lemma omega_mixed_layer_fun (S T P : @data F) v s1 n s2 c grid pin p_init index name rho_c grav interp o f0 g0 c0 d0 r0 b0 i0 v0 d r b i ml :
    keyword d0 (lit 3 (-2)) d -> keyword r0 (lit 100 0) r -> keyword b0 1%Z b -> keyword i0 "linear"%string i -> keyword v0 (VInt (-1)) (VInt (-1)) ->
    water_columns S T P v s1 n s2 c -> make_eos sdiv (AStr name) grav rho_c = Ok f0 -> mixed_layer S T P (AFun f0) g0 c0 d r b i v = Ok ml ->
    omega_surf_pub S T P grid pin p_init index (mkOmega v (MDict g0 c0 d0 r0 b0 i0 v0) (AStr name) rho_c grav interp o)
    = omega_surf_pub S T P grid pin p_init index (mkOmega v (MArray ml) (AStr name) rho_c grav interp o).
  Proof.
    intros Kd Kr Kb Ki Kv Hw Hf Hml.
    assert (Kw : forall A (o0 : option A) u w, keyword o0 u w -> or_default o0 u = w) by (intros A o0 u w [-> | [-> ->]]; reflexivity).
    apply Kw in Kd, Kr, Kb, Ki, Kv.
    unfold M_surfaces.omega_surf_pub. cbn [w_interp w_vert_dim w_p_ml w_eos w_rho_c w_grav w_options].
    destruct (make_pp interp "1" "coeffs" false 1) as [ppc|e]; [|reflexivity]. cbn [bind].
    destruct (make_pp interp "u" "interp" true 2) as [itp|e]; [|reflexivity]. cbn [bind].
    destruct (xrs_in S T v) as [[[sx tx] px]|e]; [|reflexivity]. cbn [bind].
    destruct (pin_of pin S index) as [pt|e]; [|reflexivity]. cbn [bind].
    destruct (columns_ok S T P v s1 n s2 c Hw) as ([[s t] p] & Ec & Ecol). rewrite Ec. cbn [bind]. rewrite Ecol.
    unfold _process_eos. destruct (make_eos_s_t sdiv (AStr name) grav rho_c) as [g|e]; [|reflexivity]. cbn [bind].
    rewrite Hf. cbn [bind fst snd shape elems build].
    destruct (match s1 ++ s2 with [] => Err TypeError | _ => Ok tt end) as [u|e]; [|reflexivity]. cbn [bind].
    destruct (match pt with CTuple t0 | CList t0 => ravel_multi_index t0 (s1 ++ s2) | CNone => Err TypeError end) as [pc|e]; [|reflexivity]. cbn [bind].
    destruct grid as [ed|ge gd gp|]; try reflexivity.
    destruct (key gp) as [dp|e]; [|reflexivity]. cbn [bind]. destruct (key gd) as [di|e]; [|reflexivity]. cbn [bind].
    destruct (gdiv dp di) as [dr|e]; [|reflexivity]. cbn [bind].
    assert (Hm : exists h, make_eos sdiv (AFun f0) g0 c0 = Ok h).
    { destruct (make_eos sdiv (AFun f0) g0 c0) as [h|e] eqn:E; [eauto|]. rewrite (mixed_layer_columns _ _ _ _ _ _ _ _ _ _ _ _ _ _ _ Hw), E in Hml. discriminate. }
    destruct Hm as [h Hh].
    destruct (mixed_layer_flat S T P v s1 n s2 c s t p _ _ _ _ _ _ h d r b i Hw Ec Hh Hh ml Hml) as (ml' & E & Eel).
    rewrite Kd, Kr, Kb, Ki, Kv, map_length, length_all_idx, E. cbn [bind]. rewrite Eel. reflexivity.
  Qed.

  Lemma omega_mixed_layer (S T P : @data F) v s1 n s2 c grid pin p_init index name rho_c grav interp o d0 r0 b0 i0 v0 d r b i ml :
    keyword d0 (lit 3 (-2)) d -> keyword r0 (lit 100 0) r -> keyword b0 1%Z b -> keyword i0 "linear"%string i -> keyword v0 (VInt (-1)) (VInt (-1)) ->
    water_columns S T P v s1 n s2 c -> mixed_layer S T P (AStr name) grav rho_c d r b i v = Ok ml ->
    omega_surf_pub S T P grid pin p_init index (mkOmega v (MDict None None d0 r0 b0 i0 v0) (AStr name) rho_c grav interp o)
    = omega_surf_pub S T P grid pin p_init index (mkOmega v (MArray ml) (AStr name) rho_c grav interp o).
  Proof.
    intros Kd Kr Kb Ki Kv Hw Hml.
    assert (Hf : exists f, make_eos sdiv (AStr name) grav rho_c = Ok f).
    { destruct (make_eos sdiv (AStr name) grav rho_c) as [f|e] eqn:E; [eauto|]. rewrite (mixed_layer_columns _ _ _ _ _ _ _ _ _ _ _ _ _ _ _ Hw), E in Hml. discriminate. }
    destruct Hf as [f Hf]. apply (omega_mixed_layer_fun S T P v s1 n s2 c grid pin p_init index name rho_c grav interp o f None None d0 r0 b0 i0 v0 d r b i ml); trivial.
    rewrite (mixed_layer_columns _ _ _ _ _ _ _ _ _ _ _ _ _ _ _ Hw), Hf in Hml. rewrite (mixed_layer_columns _ _ _ _ _ _ _ _ _ _ _ _ _ _ _ Hw). exact Hml.
  Qed.

  Lemma ravel_multi_inv sh : forall t k, ravel_multi_index t sh = Ok k -> exists h, valid sh h /\ t = map Z.of_nat h.
  Proof.
    induction sh as [|m sh IH]; intros [|z t] k E; cbn [ravel_multi_index] in E; try discriminate; [exists []; split; [constructor|reflexivity]|].
    destruct ((0 <=? z)%Z && (z <? Z.of_nat m)%Z)%bool eqn:Ez; [|discriminate]. apply andb_prop in Ez. destruct Ez as [E1 E2]. apply Z.leb_le in E1. apply Z.ltb_lt in E2.
    destruct (ravel_multi_index t sh) as [r|e] eqn:Er; [|discriminate]. destruct (IH _ _ Er) as (h & V & ->).
    exists (Z.to_nat z :: h). split; [constructor; [lia|exact V]|]. cbn [map]. rewrite Z2Nat.id by lia. reflexivity.
  Qed.

  Lemma omega_pins (S T P : @data F) s1 n s2 c grid pin p_init index k r : water_columns S T P (w_vert_dim k) s1 n s2 c ->
    omega_surf_pub S T P grid pin p_init index k = Ok r ->
    s1 ++ s2 <> [] /\ exists h, valid (s1 ++ s2) h /\
      match pin with
      | ANone => False
      | APin (PinInt z) => [z] = map Z.of_nat h
      | APin (PinTuple t) | AList t => t = map Z.of_nat h
      | APin (PinDict d) => length d = length (s1 ++ s2)
      end.
  Proof.
    intros Hw E. unfold M_surfaces.omega_surf_pub in E.
    destruct (make_pp (w_interp k) "1" "coeffs" false 1) as [ppc|e]; [|discriminate]. cbn [bind] in E.
    destruct (make_pp (w_interp k) "u" "interp" true 2) as [itp|e]; [|discriminate]. cbn [bind] in E.
    destruct (xrs_in S T (w_vert_dim k)) as [[[sx tx] px]|e]; [|discriminate]. cbn [bind] in E.
    destruct (pin_of pin S index) as [pt|e] eqn:Ept; [|discriminate]. cbn [bind] in E.
    destruct (columns_ok S T P _ s1 n s2 c Hw) as (stp & Ec & Ecol). rewrite Ec in E. cbn [bind] in E.
    destruct (_process_eos sdiv (w_eos k) (w_grav k) (w_rho_c k) true) as [ee|e]; [|discriminate]. cbn [bind] in E.
    rewrite Ecol in E. cbn [bind shape elems build] in E.
    split; [intros Hnil; rewrite Hnil in E; discriminate|].
    destruct (match s1 ++ s2 with [] => Err TypeError | _ => Ok tt end) as [u|e]; [|discriminate]. cbn [bind] in E.
    destruct (match pt with CTuple t0 | CList t0 => ravel_multi_index t0 (s1 ++ s2) | CNone => Err TypeError end) as [pc|e] eqn:Epc; [|discriminate].
    assert (HP : exists h, valid (s1 ++ s2) h /\ (pt = CTuple (map Z.of_nat h) \/ pt = CList (map Z.of_nat h))).
    { destruct pt as [|t|t]; [discriminate| |]; destruct (ravel_multi_inv _ _ _ Epc) as (h & V & ->); exists h; auto. }
    destruct HP as (h & V & HP). exists h. split; [exact V|]. destruct pin as [|[d|z|t]|t]; cbn [pin_of] in Ept.
    - injection Ept as <-. destruct HP; discriminate.
    - rewrite <- (valid_length _ _ V). cbn [process_pin_cast] in Ept.
      match type of Ept with (let! _ := ?M in _) = _ => destruct M as [u'|e] end; [|discriminate]. cbn [bind] in Ept.
      match type of Ept with (let! _ := ?M in _) = _ => destruct M as [l|e] eqn:El end; [|discriminate]. injection Ept as <-.
      apply length_mapM in El. destruct HP as [HP|HP]; [|discriminate]. injection HP as ->. rewrite map_length in El. congruence.
    - injection Ept as <-. destruct HP as [HP|HP]; [|discriminate]. injection HP as HP. exact HP.
    - injection Ept as <-. destruct HP as [HP|HP]; [|discriminate]. injection HP as HP. exact HP.
    - injection Ept as <-. destruct HP as [HP|HP]; [discriminate|]. injection HP as HP. exact HP.
  Qed.
End Any.
