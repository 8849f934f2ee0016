(** * lib.py: proofs for find_first_nan, take_fill, aggsum *)
From Coq Require Import ZArith Bool List Lia Arith.
From Verif Require Import Num Res Arr ArrLemmas Nd NdLemmas M_graph M_lib S_lib.
Import ListNotations.

Lemma firstn_S_snoc {A} (l : list A) : forall i x, nth_error l i = Some x -> firstn (S i) l = firstn i l ++ [x].
Proof.
  induction l as [|y l IH]; intros [|i] x H; simpl in *; try discriminate.
  - injection H as ->. reflexivity.
  - f_equal. apply IH. assumption.
Qed.

Section Lib.
  Context {F : Type} {Nm : Num F}.

  (** position of the first true of f(s), ..., f(s+n-1), or s+n *)
  Fixpoint lead (f : nat -> bool) (s n : nat) : nat :=
    match n with O => s | S m => if f s then s else lead f (S s) m end.

  Lemma lead_spec f n : forall s, s <= lead f s n <= s + n
    /\ (forall j, s <= j < lead f s n -> f j = false) /\ (lead f s n < s + n -> f (lead f s n) = true).
  Proof.
    induction n as [|n IH]; intros s; simpl.
    - split; [lia|]. split; intros; lia.
    - destruct (f s) eqn:E.
      + split; [lia|]. split; [intros; lia|auto].
      + destruct (IH (S s)) as (H1 & H2 & H3). split; [lia|]. split.
        * intros j Hj. destruct (Nat.eq_dec j s) as [->|]; [assumption|]. apply H2. lia.
        * intros Hlt. apply H3. lia.
  Qed.

  Section Find.
    Variables (a : list F) (I J K : nat).
    Hypothesis Ha : length a = I * (J * K).
    Definition nan_at i k j : bool := match nth_error a ((i * J + j) * K + k) with Some x => isnan x | None => false end.

    Lemma pos_lt i j k : i < I -> j < J -> k < K -> (i * J + j) * K + k < length a.
    Proof.
      intros Hi Hj Hk. rewrite Ha. assert (H : i * J + j < I * J) by nia. revert H. generalize (i * J + j). intros q H.
      rewrite Nat.mul_assoc. nia.
    Qed.

    Lemma scan_ok i k : i < I -> k < K -> forall n s out,
      s + n = J -> nth_error out (i * K + k) = Some J ->
      scan_nan a J K i k (seq s n) out = Ok (upd out (i * K + k) (lead (nan_at i k) s n)).
    Proof.
      intros Hi Hk. induction n as [|n IH]; intros s out Hs Ho; simpl.
      - f_equal. apply nth_error_ext. intros q. destruct (Nat.eq_dec (i * K + k) q) as [<-|Hq].
        + rewrite nth_error_upd_eq by (eapply nth_error_lt; eauto). rewrite Ho. f_equal. lia.
        + rewrite nth_error_upd_neq by assumption. reflexivity.
      - assert (Hp : (i * J + s) * K + k < length a) by (apply pos_lt; lia).
        destruct (nth_error a ((i * J + s) * K + k)) as [x|] eqn:Ex; [|apply nth_error_None in Ex; lia].
        rewrite (get_ok _ _ _ Ex). cbn [bind]. unfold nan_at at 1. rewrite Ex. destruct (isnan x) eqn:En.
        + rewrite set_ok by (eapply nth_error_lt; eauto). reflexivity.
        + apply IH; [lia|assumption].
    Qed.

    (** all columns up to the m-th one are done *)
    Definition done (m : nat) (out : list nat) : Prop :=
      length out = I * K
      /\ forall i k, i < I -> k < K ->
           nth_error out (i * K + k) = Some (if Nat.ltb (i * K + k) m then lead (nan_at i k) 0 J else J).

    Lemma pos_inj i k i' k' : k < K -> k' < K -> i * K + k = i' * K + k' -> i = i' /\ k = k'.
    Proof.
      intros Hk Hk' E. assert (i = i') by (destruct (Nat.lt_total i i') as [H|[H|H]]; [nia|assumption|nia]). subst. lia.
    Qed.

    Lemma find_first_nan3_ok : exists out, find_first_nan3 a I J K = Ok out /\ done (I * K) out.
    Proof.
      unfold find_first_nan3.
      destruct (for_range_inv (fun i out => done (i * K) out) 0 I
        (fun i out => for_range 0 K (fun k out => scan_nan a J K i k (seq 0 J) out) out) (repeat J (I * K)))
        as (out & E & H).
      - lia.
      - split; [apply repeat_length|]. intros i k Hi Hk. simpl. apply nth_error_repeat_lt. nia.
      - intros i out Hi H.
        destruct (for_range_inv (fun k out => done (i * K + k) out) 0 K
          (fun k out => scan_nan a J K i k (seq 0 J) out) out) as (out' & E' & H').
        + lia.
        + rewrite Nat.add_0_r. assumption.
        + intros k o Hk [L Ho].
          assert (Hpos : nth_error o (i * K + k) = Some J).
          { rewrite Ho by lia. rewrite (proj2 (Nat.ltb_ge _ _)) by lia. reflexivity. }
          rewrite (scan_ok i k ltac:(lia) ltac:(lia) J 0 o ltac:(lia) Hpos).
          eexists. split; [reflexivity|]. split; [rewrite length_upd; assumption|].
          intros i' k' Hi' Hk'. destruct (Nat.eq_dec (i * K + k) (i' * K + k')) as [Heq|Hne].
          * destruct (pos_inj i k i' k') as [<- <-]; try lia.
            rewrite nth_error_upd_eq by (eapply nth_error_lt; eauto).
            rewrite (proj2 (Nat.ltb_lt _ _)) by lia. reflexivity.
          * rewrite nth_error_upd_neq by assumption. rewrite Ho by assumption.
            destruct (Nat.ltb_spec (i' * K + k') (i * K + k)), (Nat.ltb_spec (i' * K + k') (i * K + S k)); try reflexivity; lia.
        + exists out'. split; [assumption|]. replace (S i * K) with (i * K + K) by lia. assumption.
      - exists out. auto.
    Qed.
  End Find.

  (** for any array and axis, the output at h is the first NaN of the cast at h *)
  Lemma find_first_nan_ok (a : nd F) (axis : Z) s1 n2 s3 :
    wf a -> shape a = s1 ++ n2 :: s3 -> (axis mod Z.of_nat (ndim a) = Z.of_nat (length s1))%Z ->
    exists out, find_first_nan a axis = Ok out /\ shape out = s1 ++ s3 /\ wf out
      /\ forall h1 h3, valid s1 h1 -> valid s3 h3 ->
           exists k, at_ out (h1 ++ h3) = Some k /\ first_nan (fun j => at_ a (h1 ++ j :: h3)) n2 k.
  Proof.
    intros Hw Hs Hax. unfold find_first_nan.
    assert (Hnd : Nat.eqb (ndim a) 0 = false).
    { apply Nat.eqb_neq. unfold ndim. rewrite Hs, app_length. simpl. lia. }
    rewrite Hnd, Hax, Nat2Z.id, Hs.
    replace (firstn (length s1) (s1 ++ n2 :: s3)) with s1 by (rewrite firstn_app, Nat.sub_diag, firstn_all; simpl; rewrite app_nil_r; reflexivity).
    replace (skipn (length s1 + 1) (s1 ++ n2 :: s3)) with s3.
    2:{ rewrite skipn_app, skipn_all2 by lia. replace (length s1 + 1 - length s1) with 1 by lia. reflexivity. }
    replace (nth (length s1) (s1 ++ n2 :: s3) 0) with n2 by (rewrite app_nth2, Nat.sub_diag by lia; reflexivity).
    assert (HL : length (elems a) = prod s1 * (n2 * prod s3)).
    { unfold wf in Hw. rewrite Hw, Hs, prod_app. reflexivity. }
    destruct (find_first_nan3_ok (elems a) (prod s1) n2 (prod s3) HL) as (out & E & L & Ho).
    rewrite E. cbn [bind]. eexists. split; [reflexivity|]. split; [reflexivity|].
    split; [unfold wf; simpl; rewrite L, prod_app; reflexivity|]. intros h1 h3 V1 V3.
    pose proof (ravel_lt _ _ V1) as R1. pose proof (ravel_lt _ _ V3) as R3.
    set (f := nan_at (elems a) n2 (prod s3) (ravel s1 h1) (ravel s3 h3)).
    exists (lead f 0 n2). split.
    - unfold at_; simpl. rewrite ravel_app by assumption. rewrite Ho by assumption.
      rewrite (proj2 (Nat.ltb_lt _ _)) by nia. reflexivity.
    - destruct (lead_spec f n2 0) as (H1 & H2 & H3).
      assert (Hat : forall j, j < n2 -> exists v, at_ a (h1 ++ j :: h3) = Some v /\ isnan v = f j).
      { intros j Hj. assert (Hv : valid (shape a) (h1 ++ j :: h3)).
        { rewrite Hs. apply valid_app; [assumption|]. constructor; assumption. }
        destruct (wf_at a _ Hw Hv) as [v Hv']. exists v. split; [assumption|].
        unfold f, nan_at. replace ((ravel s1 h1 * n2 + j) * prod s3 + ravel s3 h3) with (ravel (shape a) (h1 ++ j :: h3)).
        - unfold at_ in Hv'. rewrite Hv'. reflexivity.
        - rewrite Hs, ravel_app by assumption. simpl. lia. }
      split; [lia|]. split.
      + intros j Hj. destruct (Hat j ltac:(lia)) as (v & E1 & E2). exists v. split; [assumption|]. rewrite E2. apply H2. lia.
      + intros Hlt. destruct (Hat _ Hlt) as (v & E1 & E2). exists v. split; [assumption|]. rewrite E2. apply H3. lia.
  Qed.

  Lemma take_fill_ok junk (a : list F) (idx : list Z) fillval :
    length idx <= length junk ->
    (forall k, In k idx -> (k < Z.of_nat (length a))%Z) ->
    exists b, take_fill junk a idx fillval = Ok b /\ length b = length idx
      /\ forall i k, nth_error idx i = Some k ->
           nth_error b i = if (0 <=? k)%Z then nth_error a (Z.to_nat k) else Some fillval.
  Proof.
    intros Hj Hk. unfold take_fill.
    destruct (for_range_inv (fun n b => length b = length idx
       /\ forall i k, i < n -> nth_error idx i = Some k -> nth_error b i = if (0 <=? k)%Z then nth_error a (Z.to_nat k) else Some fillval)
       0 (length idx) (fun i b =>
         let! k := get idx i in
         if (0 <=? k)%Z then let! x := get a (Z.to_nat k) in set b i x else set b i fillval)
      (firstn (length idx) junk)) as (b & E & L & H).
    - lia.
    - split; [rewrite firstn_length; lia|]. intros; lia.
    - intros i b Hi [L H]. destruct (nth_error idx i) as [k|] eqn:Ek; [|apply nth_error_None in Ek; lia].
      rewrite (get_ok _ _ _ Ek). cbn [bind].
      assert (Hstep : forall x, (if (0 <=? k)%Z then nth_error a (Z.to_nat k) else Some fillval) = Some x ->
        exists s', set b i x = Ok s' /\ length s' = length idx /\ forall j k', j < S i -> nth_error idx j = Some k' ->
          nth_error s' j = if (0 <=? k')%Z then nth_error a (Z.to_nat k') else Some fillval).
      { intros x Hx. rewrite set_ok by lia. eexists. split; [reflexivity|]. split; [rewrite length_upd; assumption|].
        intros j k' Hj' Ek'. destruct (Nat.eq_dec i j) as [<-|Hne].
        - rewrite nth_error_upd_eq by lia. rewrite Ek in Ek'. injection Ek' as <-. symmetry. assumption.
        - rewrite nth_error_upd_neq by assumption. apply H; [lia|assumption]. }
      destruct (Z.leb_spec 0 k) as [Hpos|Hneg].
      + assert (Hlt : Z.to_nat k < length a) by (specialize (Hk k (nth_error_In _ _ Ek)); lia).
        destruct (nth_error a (Z.to_nat k)) as [x|] eqn:Ex; [|apply nth_error_None in Ex; lia].
        rewrite (get_ok _ _ _ Ex). cbn [bind]. apply Hstep. reflexivity.
      + apply Hstep. reflexivity.
    - exists b. split; [assumption|]. split; [assumption|]. intros i k Hi. apply H; [eapply nth_error_lt; eauto|assumption].
  Qed.

  Lemma aggsum_ok (a : list F) (idx : list Z) n :
    length idx <= length a ->
    (forall k, In k idx -> (k < Z.of_nat n)%Z) ->
    exists b, aggsum a idx n = Ok b /\ length b = n
      /\ forall j, j < n -> nth_error b j = Some (fold_left add (group idx a j) zero).
  Proof.
    intros Hl Hk. unfold aggsum.
    set (grp := fun i j => map snd (filter (fun p : Z * F => Z.eqb (fst p) (Z.of_nat j)) (firstn i (combine idx a)))).
    destruct (for_range_inv (fun i b => length b = n /\ forall j, j < n -> nth_error b j = Some (fold_left add (grp i j) zero))
      0 (length idx) (fun i b =>
         let! k := get idx i in
         if (0 <=? k)%Z then
           let! y := get b (Z.to_nat k) in
           let! x := get a i in
           set b (Z.to_nat k) (add y x)
         else Ok b) (repeat zero n)) as (b & E & L & H).
    - lia.
    - split; [apply repeat_length|]. intros j Hj. apply nth_error_repeat_lt. assumption.
    - intros i b Hi [L H]. destruct (nth_error idx i) as [k|] eqn:Ek; [|apply nth_error_None in Ek; lia].
      destruct (nth_error a i) as [x|] eqn:Ex; [|apply nth_error_None in Ex; lia].
      assert (Hc : nth_error (combine idx a) i = Some (k, x)) by (rewrite nth_error_combine, Ek, Ex; reflexivity).
      rewrite (get_ok _ _ _ Ek). cbn [bind].
      assert (Hgrp : forall j, grp (S i) j = grp i j ++ (if Z.eqb k (Z.of_nat j) then [x] else [])).
      { intros j. unfold grp. rewrite (firstn_S_snoc _ _ _ Hc), filter_app, map_app. simpl.
        destruct (Z.eqb k (Z.of_nat j)); reflexivity. }
      destruct (Z.leb_spec 0 k) as [Hpos|Hneg].
      + assert (Hlt : Z.to_nat k < n) by (specialize (Hk k (nth_error_In _ _ Ek)); lia).
        rewrite (get_ok _ _ _ (H _ Hlt)). cbn [bind]. rewrite (get_ok _ _ _ Ex). cbn [bind]. rewrite set_ok by lia.
        eexists. split; [reflexivity|]. split; [rewrite length_upd; assumption|]. intros j Hj. rewrite Hgrp.
        destruct (Z.eqb_spec k (Z.of_nat j)) as [Hkj|Hkj].
        * rewrite Hkj, Nat2Z.id, nth_error_upd_eq by lia. rewrite fold_left_app. reflexivity.
        * rewrite nth_error_upd_neq by lia. rewrite app_nil_r. auto.
      + eexists. split; [reflexivity|]. split; [assumption|]. intros j Hj. rewrite Hgrp.
        destruct (Z.eqb_spec k (Z.of_nat j)) as [Hkj|Hkj]; [lia|]. rewrite app_nil_r. auto.
    - exists b. split; [assumption|]. split; [assumption|]. intros j Hj. rewrite (H j Hj). unfold group, grp.
      rewrite firstn_all2 by (rewrite combine_length; lia). reflexivity.
  Qed.
End Lib.
