(** * Precomputed coefficients against on-the-fly interpolation, in any arithmetic
      with commutative addition *)
From Coq Require Import ZArith Bool Lia List.
From Verif Require Import Num Res Arr ArrLemmas M_numpy M_ppinterp P_numpy P_ppinterp.
Import ListNotations.

(** What the comparison needs from floating point arithmetic. *)
Class NumLaws (F : Type) {N : Num F} : Prop := {
  add_comm : forall x y : F, add x y = add y x;
  isnan_add : forall x y : F,
    isfinite x = negb (isnan x) -> isfinite y = negb (isnan y) ->
    isnan (add x y) = isnan x || isnan y
}.

Section Generic.
  Context {F : Type} {N : Num F}.

  (** the interval found is inside the valid range *)
  Lemma locate_bounds (x : F) X Y i : locate x X Y = Ok (Some i) ->
    exists k K, valid_range_1_two X Y = Ok (k, K) /\ k <= i /\ i + 1 < K /\ K <= length X.
  Proof.
    unfold locate. intros H. bind_inv H. destruct v as [k K].
    exists k, K. split; [reflexivity|].
    destruct (Nat.leb_spec (K - 1) k) as [|Hk]; cbn [orb] in H; [discriminate|].
    destruct (isnan x); [discriminate|].
    bind_inv H. destruct (ltb x v); [discriminate|].
    bind_inv H. destruct (ltb v0 x) eqn:Ex; [discriminate|]. injection H as <-.
    assert (HK : K <= length X).
    { apply get_inv, nth_error_lt in E1. lia. }
    split; [lia|]. split; [|assumption].
    destruct (searchsorted_edges (slice X k K) x) as (Hle & Hlast & _). rewrite length_slice in Hle by assumption.
    destruct (Nat.eq_dec (searchsorted (slice X k K) x) (K - k)) as [He|He]; [|lia].
    exfalso. specialize (Hlast ltac:(lia)). rewrite He in Hlast.
    rewrite (nth_error_nth _ _ nan (x := v0)) in Hlast; [congruence|].
    rewrite nth_error_slice by lia. replace (k + (K - k - 1)) with (K - 1) by lia.
    apply get_inv. assumption.
  Qed.

  Lemma get_diff junk (X : list F) i : i + 1 < length X -> forall h, diff_1d_samesize junk X = Ok h ->
    get h i = Ok (sub (nth (i + 1) X nan) (nth i X nan)) /\ length h = length X.
  Proof.
    intros Hi h E. destruct (diff_1d_samesize_spec junk X) as (d & E' & Hl & Hd).
    { intros ->. simpl in Hi. lia. }
    rewrite E' in E. injection E as <-. split; [|assumption].
    apply get_ok. rewrite Hd by lia. destruct (Nat.eqb_spec (S i) (length X)); [lia|].
    replace (i + 1) with (S i) by lia. reflexivity.
  Qed.

  Lemma sdiv_inv (a b c : F) : sdiv a b = Ok c -> eqb b zero = false /\ c = div a b.
  Proof. unfold sdiv. destruct (eqb b zero); [discriminate|]. intros E; injection E as <-. auto. Qed.

  Lemma sdiv_ok (a b : F) : eqb b zero = false -> sdiv a b = Ok (div a b).
  Proof. unfold sdiv. intros ->. reflexivity. Qed.

  (** *** linear *)
  Lemma linear_coeffs_1_spec junk (X Y : list F) : X <> [] -> length X = length Y ->
    exists C, linear_coeffs_1 junk X Y = Ok C
      /\ last_col C = Y
      /\ forall i, i + 1 < length X ->
         nth_error C i = Some [div (sub (nth (i + 1) Y nan) (nth i Y nan)) (sub (nth (i + 1) X nan) (nth i X nan));
                               nth i Y nan].
  Proof.
    intros Hne Hl. assert (HneY : Y <> []) by (destruct X, Y; simpl in *; congruence).
    unfold linear_coeffs_1.
    destruct (diff_1d_samesize_spec junk Y HneY) as (dY & EY & LY & _).
    destruct (diff_1d_samesize_spec junk X Hne) as (dX & EX & LX & _).
    rewrite EY, EX. cbn [bind]. eexists. split; [reflexivity|]. split.
    - apply nth_error_ext. intros i. unfold last_col.
      rewrite map_map, nth_error_map, nth_error_combine, nth_error_combine.
      destruct (nth_error Y i) as [y|] eqn:E.
      + pose proof (nth_error_lt _ _ _ E).
        destruct (nth_error dY i) eqn:E1. 2:{ apply nth_error_None in E1. lia. }
        destruct (nth_error dX i) eqn:E2. 2:{ apply nth_error_None in E2. lia. }
        reflexivity.
      + destruct (nth_error dY i), (nth_error dX i); reflexivity.
    - intros i Hi. rewrite nth_error_map, nth_error_combine, nth_error_combine.
      destruct (get_diff junk X i Hi dX EX) as [G1 _].
      destruct (get_diff junk Y i ltac:(lia) dY EY) as [G2 _].
      rewrite (get_inv _ _ _ G1), (get_inv _ _ _ G2).
      rewrite (nth_error_nth' Y nan) by lia. reflexivity.
  Qed.

  Theorem linear_same junk (X Y : list F) x d : X <> [] -> length X = length Y ->
    (forall k K i, valid_range_1_two X Y = Ok (k, K) -> k <= i -> i + 1 < K ->
       eqb (sub (nth (i + 1) X nan) (nth i X nan)) zero = false) ->
    exists C, linear_coeffs_1 junk X Y = Ok C
      /\ linear_interp_1 x X Y d = ppval_1 x X C d.
  Proof.
    intros Hne Hl Hz.
    destruct (linear_coeffs_1_spec junk X Y Hne Hl) as (C & E & El & Ec).
    exists C. split; [assumption|]. unfold linear_interp_1, ppinterp_1, ppval_1. rewrite El.
    destruct (locate x X Y) as [[i|]|] eqn:Eo; cbn [bind]; try reflexivity.
    destruct (locate_bounds x X Y i Eo) as (k & K & Ev & B1 & B2 & B3).
    unfold linear_coeffs_i.
    rewrite !(get_nth Y _ nan) by lia. rewrite !(get_nth X _ nan) by lia. cbn [bind].
    rewrite sdiv_ok by (eapply Hz; eassumption). cbn [bind].
    rewrite (get_ok _ _ _ (Ec i ltac:(lia))). reflexivity.
  Qed.

  (** *** pchip *)
  Section Slopes.
    Variables (X Y : list F).
    Definition hx (i : nat) : F := sub (nth (i + 1) X nan) (nth i X nan).
    Definition dl (i : nat) : F := div (sub (nth (i + 1) Y nan) (nth i Y nan)) (hx i).

    Definition gslope (k K j : nat) : res F :=
      if Nat.eqb j k then pchip_end (hx k) (hx (k + 1)) (dl k) (dl (k + 1))
      else if Nat.eqb j (K - 1) then pchip_end (hx (K - 2)) (hx (K - 3)) (dl (K - 2)) (dl (K - 3))
      else pchip_mid (hx (j - 1)) (hx j) (dl (j - 1)) (dl j).

    Definition grow (k K i : nat) : res (F * F * F) :=
      let! d0 := gslope k K i in let! d1 := gslope k K (i + 1) in
      pchip_piece (hx i) (dl i) d0 d1.

    Lemma pchip_slopes_inv h δ k K d :
      (forall i, k <= i -> i + 1 < K -> get h i = Ok (hx i) /\ get δ i = Ok (dl i)) ->
      2 < K - k -> pchip_slopes h δ k K = Ok d ->
      length d = K /\
      forall j, k <= j < K -> exists v, gslope k K j = Ok v /\ nth_error d j = Some v.
    Proof.
      intros Hh HK H. unfold pchip_slopes in H.
      rewrite !(proj1 (Hh k ltac:(lia) ltac:(lia))), !(proj2 (Hh k ltac:(lia) ltac:(lia))) in H.
      rewrite !(proj1 (Hh (k + 1) ltac:(lia) ltac:(lia))), !(proj2 (Hh (k + 1) ltac:(lia) ltac:(lia))) in H.
      cbn [bind] in H. bind_inv H. rename v into dk, E into Ek.
      rewrite set_ok in H by (rewrite repeat_length; lia). cbn [bind] in H.
      bind_inv H. rename v into d1, E into Ed1.
      rewrite !(proj1 (Hh (K - 2) ltac:(lia) ltac:(lia))), !(proj2 (Hh (K - 2) ltac:(lia) ltac:(lia))) in H.
      rewrite !(proj1 (Hh (K - 3) ltac:(lia) ltac:(lia))), !(proj2 (Hh (K - 3) ltac:(lia) ltac:(lia))) in H.
      cbn [bind] in H. bind_inv H. rename v into dK, E into EK.
      apply (for_range_fill_inv _ (fun i => pchip_mid (hx (i - 1)) (hx i) (dl (i - 1)) (dl i))) in Ed1.
      2:{ intros i e Hi _.
          rewrite !(proj1 (Hh (i - 1) ltac:(lia) ltac:(lia))), !(proj2 (Hh (i - 1) ltac:(lia) ltac:(lia))).
          rewrite !(proj1 (Hh i ltac:(lia) ltac:(lia))), !(proj2 (Hh i ltac:(lia) ltac:(lia))).
          reflexivity. }
      destruct Ed1 as (L1 & Hin & Hout). rewrite length_upd, repeat_length in L1.
      apply set_inv in H as [Hlt ->]. rewrite length_upd. split; [assumption|].
      intros j Hj. unfold gslope.
      destruct (Nat.eqb_spec j k) as [->|Hjk].
      - exists dk. split; [assumption|]. rewrite nth_error_upd_neq by lia.
        rewrite Hout by lia. apply nth_error_upd_eq. rewrite repeat_length. lia.
      - destruct (Nat.eqb_spec j (K - 1)) as [->|HjK].
        + exists dK. split; [assumption|]. apply nth_error_upd_eq. assumption.
        + destruct (Hin j ltac:(lia)) as (v & E1 & E2). exists v. split; [assumption|].
          rewrite nth_error_upd_neq by lia. assumption.
    Qed.

    Lemma pchip_coeffs_kK_inv junk k K C : length X = length Y -> K <= length X ->
      pchip_coeffs_kK junk X Y k K = Ok C ->
      last_col C = Y /\ length C = length X /\
      (forall i, k <= i -> i + 1 < K ->
        eqb (hx i) zero = false
        /\ exists c3 c2 c1, nth_error C i = Some [c3; c2; c1; nth i Y nan]
        /\ ((2 < K - k -> grow k K i = Ok (c3, c2, c1))
            /\ (K - k = 2 -> c3 = lit 0 0 /\ c2 = lit 0 0 /\ c1 = dl i))).
    Proof.
      intros Hl HK H. unfold pchip_coeffs_kK in H.
      bind_inv H. rename v into h, E into Eh. bind_inv H. rename v into dY, E into EdY.
      set (δ := map (fun '(dy, hi) => div dy hi) (combine dY h)) in *.
      assert (Hh : forall i, k <= i -> i + 1 < K -> get h i = Ok (hx i) /\ get δ i = Ok (dl i)).
      { intros i Hi1 Hi2. destruct (get_diff junk X i ltac:(lia) h Eh) as [G1 _].
        destruct (get_diff junk Y i ltac:(lia) dY EdY) as [G2 _]. split; [assumption|].
        apply get_ok. unfold δ. rewrite nth_error_map, nth_error_combine.
        rewrite (get_inv _ _ _ G1), (get_inv _ _ _ G2). reflexivity. }
      bind_inv H. rename v into C3, E into EC.
      assert (HC : length C3 = length X /\ forall i, k <= i -> i + 1 < K ->
        eqb (hx i) zero = false
        /\ exists c3 c2 c1, nth_error C3 i = Some (c3, c2, c1)
        /\ ((2 < K - k -> grow k K i = Ok (c3, c2, c1))
            /\ (K - k = 2 -> c3 = lit 0 0 /\ c2 = lit 0 0 /\ c1 = dl i))).
      { destruct (Nat.ltb_spec 2 (K - k)) as [H2|H2].
        - bind_inv EC. rename v into d.
          destruct (pchip_slopes_inv h δ k K d Hh H2 E) as [Ld Hd].
          apply (for_range_fill_inv _ (fun i => grow k K i)) in EC.
          2:{ intros i e Hi Le. rewrite !(proj1 (Hh i ltac:(lia) ltac:(lia))), !(proj2 (Hh i ltac:(lia) ltac:(lia))).
              destruct (Hd i ltac:(lia)) as (v0 & G0 & N0). destruct (Hd (i + 1) ltac:(lia)) as (v1 & G1 & N1).
              unfold grow. rewrite (get_ok _ _ _ N0), (get_ok _ _ _ N1), G0, G1. reflexivity. }
          destruct EC as (L3 & Hin & _). rewrite repeat_length in L3. split; [assumption|].
          intros i Hi1 Hi2. destruct (Hin i ltac:(lia)) as (((c3, c2), c1) & G & Nn).
          split.
          + unfold grow in G. bind_inv G. bind_inv G. unfold pchip_piece in G. bind_inv G.
            apply sdiv_inv in E2. tauto.
          + exists c3, c2, c1. split; [assumption|]. split; [tauto|lia].
        - destruct (Nat.eqb_spec (K - k) 2) as [H2'|H2'].
          + rewrite !(get_nth X _ nan), !(get_nth Y _ nan) in EC by lia. cbn [bind] in EC.
            bind_inv EC. apply sdiv_inv in E as [Ez ->].
            apply set_inv in EC as [Hlt ->]. rewrite repeat_length in Hlt.
            rewrite length_upd, repeat_length. split; [reflexivity|].
            intros i Hi1 Hi2. assert (i = k) by lia. subst i. split; [assumption|].
            do 3 eexists. split.
            * apply nth_error_upd_eq. rewrite repeat_length. assumption.
            * split; [lia|]. intros _. auto.
          + injection EC as <-. rewrite repeat_length. split; [reflexivity|]. intros; lia. }
      destruct HC as [LC HC]. injection H as <-. split; [|split].
      - apply nth_error_ext. intros i. unfold last_col.
        rewrite map_map, nth_error_map, nth_error_combine.
        destruct (nth_error Y i) as [y|] eqn:E.
        + pose proof (nth_error_lt _ _ _ E).
          destruct (nth_error C3 i) as [[[? ?] ?]|] eqn:E1. 2:{ apply nth_error_None in E1. lia. }
          reflexivity.
        + destruct (nth_error C3 i) as [[[? ?] ?]|]; reflexivity.
      - rewrite map_length, combine_length. lia.
      - intros i Hi1 Hi2. destruct (HC i Hi1 Hi2) as (Hz & c3 & c2 & c1 & Nn & Hg).
        split; [assumption|]. exists c3, c2, c1. split; [|assumption].
        rewrite nth_error_map, nth_error_combine, Nn, (nth_error_nth' Y nan) by lia. reflexivity.
    Qed.
  End Slopes.

  Context {L : NumLaws F}.

  Definition regular (l : list F) : Prop :=
    forall i, i < length l -> isfinite (nth i l nan) = negb (isnan (nth i l nan)).

  Lemma pchip_i_end_comm (h0 h1 δ0 δ1 : F) : pchip_i_end h0 h1 δ0 δ1 = pchip_end h1 h0 δ1 δ0.
  Proof.
    unfold pchip_i_end, pchip_end. rewrite (add_comm h0 (mul (lit 2 0) h1)), (add_comm h0 h1). reflexivity.
  Qed.

  Lemma pchip_i_mid_comm (h0 h1 δ0 δ1 : F) : pchip_i_mid h0 h1 δ0 δ1 = pchip_mid h0 h1 δ0 δ1.
  Proof.
    unfold pchip_i_mid, pchip_mid.
    rewrite (add_comm (mul (lit 2 0) h1) h0), (add_comm h1 (mul (lit 2 0) h0)). reflexivity.
  Qed.

  Lemma nan_at_spec X Y j : regular X -> regular Y -> length X = length Y -> j < length X ->
    nan_at X Y j = Ok (isnan (nth j X nan) || isnan (nth j Y nan)).
  Proof.
    intros RX RY Hl Hj. unfold nan_at. rewrite !(get_nth _ _ nan) by lia. cbn [bind].
    rewrite isnan_add; [reflexivity|apply RX; assumption|apply RY; lia].
  Qed.

  Theorem pchip_same junk (X Y : list F) C x d : length X = length Y -> regular X -> regular Y ->
    pchip_coeffs_1 junk X Y = Ok C ->
    pchip_interp_1 x X Y d = ppval_1 x X C d.
  Proof.
    intros Hl RX RY EC. unfold pchip_coeffs_1 in EC.
    destruct (valid_range_1_two_spec X Y) as (k & K & Ev & V1 & V2 & V3 & V4 & V5); [lia|].
    rewrite Ev in EC. cbn [bind] in EC.
    destruct (pchip_coeffs_kK_inv X Y junk k K C Hl ltac:(lia) EC) as (El & LC & HC).
    unfold pchip_interp_1, ppinterp_1, ppval_1. rewrite El.
    destruct (locate x X Y) as [[i|]|] eqn:Eo; cbn [bind]; try reflexivity.
    destruct (locate_bounds x X Y i Eo) as (k' & K' & Ev' & B1 & B2 & B3).
    rewrite Ev in Ev'. injection Ev' as <- <-.
    destruct (HC i B1 B2) as (Hz & c3 & c2 & c1 & Nn & Hg3 & Hg2).
    rewrite (get_ok _ _ _ Nn). rewrite (get_nth X i nan) by lia. cbn [bind].
    enough (E : pchip_coeffs_i X Y i = Ok [c3; c2; c1; nth i Y nan]) by (rewrite E; reflexivity).
    unfold pchip_coeffs_i.
    assert (Hnn : forall j, k <= j < K -> isnan (nth j X nan) || isnan (nth j Y nan) = false).
    { intros j Hj. apply orb_false_iff. destruct (Nat.eq_dec j k) as [->|Hne].
      - destruct (V3 ltac:(lia)) as (F1 & F2 & _). rewrite (RX k) in F1 by lia. rewrite (RY k) in F2 by lia.
        apply negb_true_iff in F1, F2. auto.
      - apply V4. lia. }
    assert (Es : (if Nat.eqb i 0 then Ok true else nan_at X Y (i - 1)) = Ok (Nat.eqb i k)).
    { destruct (Nat.eqb_spec i 0) as [->|Hi].
      - destruct (Nat.eqb_spec 0 k); [reflexivity|lia].
      - rewrite nan_at_spec by (auto; lia).
        destruct (Nat.eqb_spec i k) as [->|Hk].
        + destruct (V2 (k - 1) ltac:(lia)) as [A|A].
          * rewrite (RX (k - 1)) in A by lia. apply negb_false_iff in A. rewrite A. reflexivity.
          * rewrite (RY (k - 1)) in A by lia. apply negb_false_iff in A. rewrite A, orb_true_r. reflexivity.
        + rewrite Hnn by lia. reflexivity. }
    assert (Ee : (if Nat.eqb i (length X - 2) then Ok true else nan_at X Y (i + 2)) = Ok (Nat.eqb (i + 2) K)).
    { destruct (Nat.eqb_spec i (length X - 2)) as [->|Hi].
      - destruct (Nat.eqb_spec (length X - 2 + 2) K); [reflexivity|lia].
      - rewrite nan_at_spec by (auto; lia).
        destruct (Nat.eqb_spec (i + 2) K) as [E|HK].
        + rewrite E. destruct (V5 ltac:(lia)) as [[A|A] _]; rewrite A; [reflexivity|].
          rewrite orb_true_r. reflexivity.
        + rewrite Hnn by lia. reflexivity. }
    rewrite Es, Ee. cbn [bind]. rewrite !(get_nth _ _ nan) by lia. cbn [bind].
    fold (hx X i).
    assert (Hd : forall j, k <= j -> j + 1 < K ->
      sdiv (sub (nth (j + 1) Y nan) (nth j Y nan)) (sub (nth (j + 1) X nan) (nth j X nan)) = Ok (dl X Y j)).
    { intros j J1 J2. apply sdiv_ok. apply (HC j J1 J2). }
    assert (Hd' : forall j j', j' = j + 1 -> k <= j -> j + 1 < K ->
      sdiv (sub (nth j' Y nan) (nth j Y nan)) (sub (nth j' X nan) (nth j X nan)) = Ok (dl X Y j)).
    { intros j j' -> J1 J2. apply Hd; assumption. }
    unfold hx in *.
    destruct (Nat.eqb_spec i k) as [Hk|Hk]; destruct (Nat.eqb_spec (i + 2) K) as [HK|HK]; cbn [andb].
    - rewrite Hd by lia. cbn [bind]. destruct (Hg2 ltac:(lia)) as (-> & -> & ->). reflexivity.
    - specialize (Hg3 ltac:(lia)). subst i. unfold grow, gslope in Hg3.
      rewrite Nat.eqb_refl in Hg3.
      destruct (Nat.eqb_spec (k + 1) k); [lia|]. destruct (Nat.eqb_spec (k + 1) (K - 1)); [lia|].
      rewrite !(get_nth _ _ nan) by lia. cbn [bind].
      rewrite (Hd' k (k + 1)), (Hd' (k + 1) (k + 2)) by lia. cbn [bind].
      change (@pchip_i_start F N) with (@pchip_end F N). rewrite pchip_i_mid_comm.
      unfold hx in Hg3. replace (k + 1 + 1) with (k + 2) in Hg3 by lia.
      replace (k + 1 - 1) with k in Hg3 by lia.
      bind_inv Hg3. cbn [bind]. bind_inv Hg3. cbn [bind].
      unfold pchip_piece in Hg3. bind_inv Hg3. cbn [bind]. bind_inv Hg3. cbn [bind].
      bind_inv Hg3. cbn [bind]. injection Hg3 as <- <- <-. reflexivity.
    - specialize (Hg3 ltac:(lia)). unfold grow, gslope in Hg3.
      destruct (Nat.eqb_spec i k); [lia|]. destruct (Nat.eqb_spec i (K - 1)); [lia|].
      destruct (Nat.eqb_spec (i + 1) k); [lia|]. destruct (Nat.eqb_spec (i + 1) (K - 1)); [|lia].
      rewrite !(get_nth _ _ nan) by lia. cbn [bind].
      rewrite (Hd' (i - 1) i), (Hd' i (i + 1)) by lia. cbn [bind].
      rewrite pchip_i_end_comm, pchip_i_mid_comm.
      replace (K - 2) with i in Hg3 by lia. replace (K - 3) with (i - 1) in Hg3 by lia.
      unfold hx in Hg3. replace (i - 1 + 1) with i in Hg3 by lia.
      bind_inv Hg3. cbn [bind]. bind_inv Hg3. cbn [bind].
      unfold pchip_piece in Hg3. bind_inv Hg3. cbn [bind]. bind_inv Hg3. cbn [bind].
      bind_inv Hg3. cbn [bind]. injection Hg3 as <- <- <-. reflexivity.
    - specialize (Hg3 ltac:(lia)). unfold grow, gslope in Hg3.
      destruct (Nat.eqb_spec i k); [lia|]. destruct (Nat.eqb_spec i (K - 1)); [lia|].
      destruct (Nat.eqb_spec (i + 1) k); [lia|]. destruct (Nat.eqb_spec (i + 1) (K - 1)); [lia|].
      rewrite !(get_nth _ _ nan) by lia. cbn [bind].
      rewrite (Hd' (i - 1) i), (Hd' i (i + 1)), (Hd' (i + 1) (i + 2)) by lia. cbn [bind].
      rewrite !pchip_i_mid_comm.
      unfold hx in Hg3. replace (i - 1 + 1) with i in Hg3 by lia.
      replace (i + 1 - 1) with i in Hg3 by lia. replace (i + 1 + 1) with (i + 2) in Hg3 by lia.
      bind_inv Hg3. cbn [bind]. bind_inv Hg3. cbn [bind].
      unfold pchip_piece in Hg3. bind_inv Hg3. cbn [bind]. bind_inv Hg3. cbn [bind].
      bind_inv Hg3. cbn [bind]. injection Hg3 as <- <- <-. reflexivity.
  Qed.
End Generic.
