(** * Proofs about edge data on rectilinear grids *)
From Coq Require Import List ZArith Bool Lia.
From Verif Require Import Num Res Arr ArrLemmas Nd NdLemmas M_grid S_graph S_grid P_lib P_tab P_grid.
Import ListNotations.
Local Open Scope nat_scope.

Ltac f2 := repeat (apply Forall2_cons; [solve [auto]|]); apply Forall2_nil.

Section Data.
  Context {A : Type}.

  (** t has shape (n, m) and its elements are given by g *)
  Definition otab (t : list (list A)) (n m : nat) (g : nat -> nat -> option A) : Prop :=
    has_shape t n m /\ forall i j, i < n -> j < m -> at2 t i j = g i j.

  Lemma mapM_table (elem : nat -> res A) (val : nat -> option A) (f : nat -> nat -> nat) n m :
    (forall k, elem k = match val k with Some x => Ok x | None => Err IndexError end) ->
    (forall i j, i < n -> j < m -> val (f i j) <> None) ->
    exists t, mapM (fun i => mapM (fun j => elem (f i j)) (seq 0 m)) (seq 0 n) = Ok t
      /\ otab t n m (fun i j => val (f i j)).
  Proof.
    intros He Hv.
    assert (Hrow : forall i, i < n -> exists r, mapM (fun j => elem (f i j)) (seq 0 m) = Ok r /\ length r = m
      /\ forall j, j < m -> nth_error r j = val (f i j)).
    { intros i Hi. destruct (mapM_ok (fun j => elem (f i j)) (seq 0 m)) as (r & E & L & H).
      - intros j Hj. apply in_seq in Hj. rewrite He. specialize (Hv i j Hi ltac:(lia)). destruct (val (f i j)); [eauto|congruence].
      - exists r. split; [assumption|]. rewrite seq_length in L. split; [assumption|]. intros j Hj.
        destruct (H j j) as (y & Hy & Ey).
        { rewrite (nth_error_nth' _ 0) by (rewrite seq_length; assumption). rewrite seq_nth by assumption. reflexivity. }
        rewrite He in Ey. destruct (val (f i j)); [congruence|discriminate]. }
    destruct (mapM_ok (fun i => mapM (fun j => elem (f i j)) (seq 0 m)) (seq 0 n)) as (t & E & L & H).
    - intros i Hi. apply in_seq in Hi. destruct (Hrow i ltac:(lia)) as (r & Er & _). eauto.
    - exists t. split; [assumption|]. rewrite seq_length in L.
      assert (Hnth : forall i, i < n -> exists r, nth_error t i = Some r /\ length r = m /\ forall j, j < m -> nth_error r j = val (f i j)).
      { intros i Hi. destruct (H i i) as (r & Hr & Er).
        { rewrite (nth_error_nth' _ 0) by (rewrite seq_length; assumption). rewrite seq_nth by assumption. reflexivity. }
        destruct (Hrow i Hi) as (r' & Er' & Lr & Hj). rewrite Er in Er'. injection Er' as <-. eauto. }
      split; [split; [assumption|]|].
      + intros r Hin. apply In_nth_error in Hin as [i Hi]. assert (i < n) by (rewrite <- L; apply nth_error_Some; congruence).
        destruct (Hnth i) as (r' & Hr & Lr & _); [assumption|]. congruence.
      + intros i j Hi Hj. unfold at2. destruct (Hnth i Hi) as (r & -> & _ & Hr). auto.
  Qed.

  Lemma otab_ext t n m g h : otab t n m g -> (forall i j, i < n -> j < m -> g i j = h i j) -> otab t n m h.
  Proof. intros [H1 H2] E. split; [assumption|]. intros i j Hi Hj. rewrite <- E by assumption. auto. Qed.

  Lemma broadcast2_ok (a : nd A) n m : broadcastable a n m ->
    exists t, broadcast2 a n m = Ok t /\ otab t n m (bat a).
  Proof.
    intros (Hwf & Hd & HF). destruct a as [sh el]. unfold wf, ndim, broadcast2 in *. simpl in *.
    destruct sh as [|d [|e [|? ?]]]; simpl in Hd; try lia; unfold last_of in HF; simpl in HF.
    - destruct (mapM_table (fun k => match nth_error el k with Some x => Ok x | None => Err IndexError end) (nth_error el) (fun _ _ => 0) n m) as (t & E & H).
      + reflexivity.
      + intros i j Hi Hj. destruct el; simpl in *; [discriminate|congruence].
      + exists t. split; [exact E|]. eapply otab_ext; [exact H|]. reflexivity.
    - inversion HF as [|? ? ? ? HF1 _]; subst.
      replace (Nat.eqb d m || Nat.eqb d 1) with true by (symmetry; apply orb_true_iff; rewrite !Nat.eqb_eq; assumption).
      destruct (mapM_table (fun k => match nth_error el k with Some x => Ok x | None => Err IndexError end) (nth_error el) (fun _ j => if Nat.eqb d 1 then 0 else j) n m) as (t & E & H).
      + reflexivity.
      + intros i j Hi Hj. apply nth_error_Some. rewrite Hwf. simpl in *. destruct (Nat.eqb_spec d 1); lia.
      + exists t. split; [exact E|]. eapply otab_ext; [exact H|]. intros i j Hi Hj. cbv beta. unfold bat, at_. simpl. f_equal. lia.
    - inversion HF as [|? ? ? ? HF1 HF2]; subst. inversion HF2 as [|? ? ? ? HF3 _]; subst.
      replace (Nat.eqb d n || Nat.eqb d 1) with true by (symmetry; apply orb_true_iff; rewrite !Nat.eqb_eq; assumption).
      replace (Nat.eqb e m || Nat.eqb e 1) with true by (symmetry; apply orb_true_iff; rewrite !Nat.eqb_eq; assumption).
      simpl andb.
      destruct (mapM_table (fun k => match nth_error el k with Some x => Ok x | None => Err IndexError end) (nth_error el) (fun i j => (if Nat.eqb d 1 then 0 else i) * e + (if Nat.eqb e 1 then 0 else j)) n m) as (t & E & H).
      + reflexivity.
      + intros i j Hi Hj. apply nth_error_Some. rewrite Hwf. simpl in *.
        assert ((if Nat.eqb d 1 then 0 else i) < d) by (destruct (Nat.eqb_spec d 1); lia).
        assert ((if Nat.eqb e 1 then 0 else j) < e) by (destruct (Nat.eqb_spec e 1); lia). nia.
      + exists t. split; [exact E|]. eapply otab_ext; [exact H|]. intros i j Hi Hj. cbv beta. unfold bat, at_. simpl. f_equal.
        rewrite !Nat.mul_1_r, ?Nat.add_0_r. reflexivity.
  Qed.

  Lemma broadcast2_err (a : nd A) n m : wf a -> ~ broadcastable a n m -> broadcast2 a n m = Err ValueError.
  Proof.
    intros Hwf H. destruct a as [sh el]. unfold broadcastable, ndim, last_of in H. unfold broadcast2. simpl in *.
    destruct sh as [|d [|e [|? ?]]]; simpl in *.
    - exfalso. apply H. split; [assumption|]. split; [lia|constructor].
    - destruct (Nat.eqb_spec d m); [|destruct (Nat.eqb_spec d 1)]; try reflexivity; exfalso; apply H;
        (split; [assumption|]); (split; [lia|]); f2.
    - destruct (Nat.eqb_spec d n), (Nat.eqb_spec d 1), (Nat.eqb_spec e m), (Nat.eqb_spec e 1); simpl; try reflexivity; exfalso; apply H;
        (split; [assumption|]); (split; [lia|]); f2.
    - reflexivity.
  Qed.

  Lemma has_shape_concat (t : list (list A)) n m : has_shape t n m -> length (concat t) = n * m.
  Proof.
    intros [L H]. revert n L. induction t as [|r t IH]; intros n L; simpl in *; [subst; reflexivity|].
    rewrite app_length, (IH (fun r Hr => H r (or_intror Hr)) (length t) eq_refl), (H r (or_introl eq_refl)). subst. simpl. lia.
  Qed.

  Lemma shape_some (t : list (list A)) n m i j : has_shape t n m -> i < n -> j < m -> exists r x, nth_error t i = Some r /\ nth_error r j = Some x.
  Proof.
    intros [L H] Hi Hj. destruct (nth_error t i) as [r|] eqn:E; [|apply nth_error_None in E; lia].
    assert (Lr : length r = m) by (apply H; eapply nth_error_In; eauto).
    destruct (nth_error r j) as [x|] eqn:E2; [|apply nth_error_None in E2; lia]. eauto.
  Qed.

  Lemma concat_at2 (t : list (list A)) n m i j : has_shape t n m -> i < n -> j < m ->
    nth_error (concat t) (node m i j) = at2 t i j.
  Proof.
    intros Hs Hi Hj. destruct (shape_some _ _ _ _ _ Hs Hi Hj) as (r & x & E1 & E2). unfold at2. rewrite E1, E2.
    eapply nth_error_concat; eauto. apply Hs.
  Qed.

  Lemma has_shape_skipn (t : list (list A)) n m k : has_shape t n m -> has_shape (skipn k t) (n - k) m.
  Proof.
    intros [L H]. split; [rewrite skipn_length; lia|]. intros r Hin. apply H.
    rewrite <- (firstn_skipn k t). apply in_or_app. right. assumption.
  Qed.

  Lemma has_shape_map_skipn (t : list (list A)) n m k : has_shape t n m -> has_shape (map (skipn k) t) n (m - k).
  Proof.
    intros [L H]. split; [rewrite map_length; assumption|]. intros r Hin. apply in_map_iff in Hin as (r' & <- & Hin).
    rewrite skipn_length, (H r' Hin). reflexivity.
  Qed.

  Lemma at2_skipn (t : list (list A)) k i j : at2 (skipn k t) i j = at2 t (k + i) j.
  Proof. unfold at2. rewrite nth_error_skipn. reflexivity. Qed.

  Lemma at2_map_skipn (t : list (list A)) k i j : at2 (map (skipn k) t) i j = at2 t i (k + j).
  Proof. unfold at2. rewrite nth_error_map. destruct (nth_error t i); simpl; [apply nth_error_skipn|reflexivity]. Qed.

  Lemma build_edgedata_ok (x y : nd A) ni nj p0 p1 : broadcastable x ni nj -> broadcastable y ni nj ->
    exists d, build_edgedata ni nj p0 p1 x y = Ok d
      /\ length d = with_prev ni p0 * nj + ni * with_prev nj p1
      /\ (forall i j, wall p0 <= i -> i < ni -> j < nj -> nth_error d (node nj (i - wall p0) j) = bat x i j)
      /\ (forall i j, i < ni -> wall p1 <= j -> j < nj ->
            nth_error d (with_prev ni p0 * nj + node (with_prev nj p1) i (j - wall p1)) = bat y i j).
  Proof.
    intros Hx Hy. destruct (broadcast2_ok _ _ _ Hx) as (tx & Ex & Sx & Bx). destruct (broadcast2_ok _ _ _ Hy) as (ty & Ey & Sy & By).
    unfold build_edgedata. rewrite Ex, Ey. cbn [bind]. eexists. split; [reflexivity|].
    pose proof (has_shape_skipn _ _ _ (wall p0) Sx) as S1. pose proof (has_shape_map_skipn _ _ _ (wall p1) Sy) as S2.
    rewrite <- with_prev_wall in S1, S2.
    pose proof (has_shape_concat _ _ _ S1) as L1. pose proof (has_shape_concat _ _ _ S2) as L2.
    split; [rewrite app_length; lia|]. split.
    - intros i j Hw Hi Hj. pose proof (pos_i ni nj p0 i j Hw Hi Hj). rewrite nth_error_app1 by lia.
      rewrite (concat_at2 _ _ _ _ _ S1) by (rewrite ?with_prev_wall; lia). rewrite at2_skipn.
      replace (wall p0 + (i - wall p0)) with i by lia. auto.
    - intros i j Hi Hw Hj. pose proof (pos_j ni nj p1 i j Hi Hw Hj). rewrite nth_error_app2 by lia.
      rewrite L1, Nat.add_comm, Nat.add_sub.
      rewrite (concat_at2 _ _ _ _ _ S2) by (rewrite ?with_prev_wall; lia). rewrite at2_map_skipn.
      replace (wall p1 + (j - wall p1)) with j by lia. auto.
  Qed.

  Lemma build_edgedata_err (x y : nd A) ni nj p0 p1 : wf x -> wf y ->
    ~ (broadcastable x ni nj /\ broadcastable y ni nj) -> build_edgedata ni nj p0 p1 x y = Err ValueError.
  Proof.
    intros Wx Wy H. unfold build_edgedata.
    destruct (broadcast2 x ni nj) as [tx|ex] eqn:Ex.
    - cbn [bind]. destruct (broadcast2 y ni nj) as [ty|ey] eqn:Ey.
      + exfalso. apply H. 
        assert (D : forall (a : nd A) t, wf a -> broadcast2 a ni nj = Ok t -> broadcastable a ni nj).
        { intros [sh el] t W E. unfold broadcast2 in E. unfold broadcastable, ndim, last_of. simpl in *. split; [assumption|].
          destruct sh as [|d [|e [|? ?]]]; simpl in *; try discriminate.
          - split; [lia|constructor].
          - split; [lia|]. destruct (Nat.eqb_spec d nj), (Nat.eqb_spec d 1); simpl in E; try discriminate; f2.
          - split; [lia|]. destruct (Nat.eqb_spec d ni), (Nat.eqb_spec d 1), (Nat.eqb_spec e nj), (Nat.eqb_spec e 1); simpl in E; try discriminate; f2. }
        eauto.
      + cbn [bind]. rewrite broadcast2_err in Ey; [congruence|assumption|].
        intros B. destruct (broadcast2_ok _ _ _ B) as (t & E & _). congruence.
    - cbn [bind]. rewrite broadcast2_err in Ex; [congruence|assumption|].
      intros B. destruct (broadcast2_ok _ _ _ B) as (t & E & _). congruence.
  Qed.

  Lemma reshape2_ok (v : list A) r c : length v = r * c ->
    reshape2 v (Z.of_nat r) (Z.of_nat c) = Ok (mk_nd [r; c] v).
  Proof.
    intros L. unfold reshape2.
    destruct (Z.eqb_spec (Z.of_nat r) (-1)); [lia|]. destruct (Z.eqb_spec (Z.of_nat c) (-1)); [lia|].
    destruct (Z.ltb_spec (Z.of_nat r) 0); [lia|]. destruct (Z.ltb_spec (Z.of_nat c) 0); [lia|]. simpl.
    destruct (Z.eqb_spec (Z.of_nat r * Z.of_nat c) (Z.of_nat (length v))) as [E|E]; [rewrite !Nat2Z.id; reflexivity|lia].
  Qed.

  Lemma broadcast2_same (v : list A) r c : length v = r * c ->
    exists t, broadcast2 (mk_nd [r; c] v) r c = Ok t /\ otab t r c (fun i j => nth_error v (node c i j)).
  Proof.
    intros L. destruct (broadcast2_ok (mk_nd [r; c] v) r c) as (t & E & H).
    - split; [unfold wf; simpl; lia|]. split; [unfold ndim; simpl; lia|]. unfold last_of; simpl. f2.
    - exists t. split; [assumption|]. eapply otab_ext; [exact H|]. intros i j Hi Hj. unfold bat, at_, node, last_of. simpl. f_equal.
      destruct (Nat.eqb_spec r 1), (Nat.eqb_spec c 1); subst; lia.
  Qed.

  Variable nan : A.

  Lemma edgedata_to_maps_ok (ed : list A) ni nj p0 p1 :
    (p0 = true \/ 0 < ni) -> (p1 = true \/ 0 < nj) ->
    length ed = with_prev ni p0 * nj + ni * with_prev nj p1 ->
    exists Fi Fj, edgedata_to_maps nan ed ni nj p0 p1 = Ok (Fi, Fj)
      /\ has_shape Fi ni nj /\ has_shape Fj ni nj
      /\ (forall i j, i < ni -> j < nj ->
            at2 Fi i j = if Nat.ltb i (wall p0) then Some nan else nth_error ed (node nj (i - wall p0) j))
      /\ (forall i j, i < ni -> j < nj ->
            at2 Fj i j = if Nat.ltb j (wall p1) then Some nan
                         else nth_error ed (with_prev ni p0 * nj + node (with_prev nj p1) i (j - wall p1))).
  Proof.
    intros H0 H1 L.
    assert (Wi : wall p0 <= ni) by (destruct p0; simpl; [lia|destruct H0; [discriminate|lia]]).
    assert (Wj : wall p1 <= nj) by (destruct p1; simpl; [lia|destruct H1; [discriminate|lia]]).
    unfold edgedata_to_maps. rewrite !sub_wall by assumption. rewrite <- Nat2Z.inj_mul.
    unfold upto, from. rewrite bound_nonneg by lia. rewrite Nat2Z.id.
    set (wi := with_prev ni p0) in *. set (wj := with_prev nj p1) in *.
    rewrite reshape2_ok by (rewrite firstn_length; lia). cbn [bind].
    destruct (broadcast2_same (firstn (wi * nj) ed) wi nj) as (x & Ex & Sx & Bx); [rewrite firstn_length; lia|].
    rewrite <- with_prev_wall. fold wi. rewrite Ex. cbn [bind].
    rewrite reshape2_ok by (rewrite skipn_length; lia). cbn [bind].
    destruct (broadcast2_same (skipn (wi * nj) ed) ni wj) as (y & Ey & Sy & By); [rewrite skipn_length; lia|].
    rewrite <- with_prev_wall. fold wj. rewrite Ey. cbn [bind].
    eexists _, _. split; [reflexivity|].
    assert (Ew : wi + wall p0 = ni /\ wj + wall p1 = nj) by (unfold wi, wj; rewrite !with_prev_wall; lia).
    clearbody wi wj. destruct Ew as [Ewi Ewj].
    assert (Hin : forall r k, In r (firstn k (repeat (repeat nan nj) ni)) -> r = repeat nan nj).
    { intros r k Hr. apply (repeat_spec ni (repeat nan nj)). rewrite <- (firstn_skipn k). apply in_or_app. left. assumption. }
    split.
    { destruct Sx as [Lx Hx]. split; [rewrite app_length, firstn_length, repeat_length; lia|].
      intros r Hr. apply in_app_or in Hr as [Hr|Hr]; [|auto]. apply Hin in Hr. subst. apply repeat_length. }
    split.
    { destruct Sy as [Ly Hy]. split; [rewrite map_length, combine_length, repeat_length; lia|].
      intros r Hr. apply in_map_iff in Hr as ([u v] & <- & Hr). pose proof (in_combine_l _ _ _ _ Hr) as Hu. apply in_combine_r in Hr.
      apply repeat_spec in Hu. simpl. rewrite app_length, firstn_length, (Hy v Hr). subst u. rewrite repeat_length. lia. }
    split.
    - intros i j Hi Hj. unfold at2. destruct (Nat.ltb_spec i (wall p0)) as [Hw|Hw].
      + rewrite nth_error_app1 by (rewrite firstn_length, repeat_length; lia).
        rewrite nth_error_firstn by assumption.
        rewrite (nth_error_nth' _ []) by (rewrite repeat_length; lia).
        assert (Hr : nth i (repeat (repeat nan nj) ni) [] = repeat nan nj).
        { apply (repeat_spec ni (repeat nan nj)). apply nth_In. rewrite repeat_length. lia. }
        rewrite Hr. rewrite (nth_error_nth' _ nan) by (rewrite repeat_length; lia). f_equal. apply nth_repeat.
      + assert (Lf : length (firstn (wall p0) (repeat (repeat nan nj) ni)) = wall p0) by (rewrite firstn_length, repeat_length; lia).
        rewrite nth_error_app2 by lia. rewrite Lf. fold (at2 x (i - wall p0) j). rewrite Bx by lia.
        rewrite nth_error_firstn; [reflexivity|]. apply node_lt; lia.
    - intros i j Hi Hj. unfold at2. rewrite nth_error_map.
      destruct (nth_error y i) as [r|] eqn:Er; [|apply nth_error_None in Er; destruct Sy; lia].
      assert (Lr : length r = wj) by (apply Sy; eapply nth_error_In; eauto).
      assert (Hc : nth_error (combine (repeat (repeat nan nj) ni) y) i = Some (repeat nan nj, r)).
      { apply nth_combine. split; [|assumption]. rewrite (nth_error_nth' _ (repeat nan nj)) by (rewrite repeat_length; lia). f_equal. apply nth_repeat. }
      rewrite Hc. simpl. assert (Lf : length (firstn (wall p1) (repeat nan nj)) = wall p1) by (rewrite firstn_length, repeat_length; lia).
      destruct (Nat.ltb_spec j (wall p1)) as [Hw|Hw].
      + rewrite nth_error_app1 by lia. rewrite nth_error_firstn by assumption.
        rewrite (nth_error_nth' _ nan) by (rewrite repeat_length; lia). f_equal. apply nth_repeat.
      + rewrite nth_error_app2 by lia. rewrite Lf.
        assert (E : at2 y i (j - wall p1) = nth_error r (j - wall p1)) by (unfold at2; rewrite Er; reflexivity).
        rewrite <- E, By by lia. rewrite nth_error_skipn. reflexivity.
  Qed.
End Data.

(** C21: the k-th value belongs to the k-th edge *)
Lemma grid_alignment {A} ja jb ni nj p0 p1 (dxC dyC dyG dxG : nd A) : sizes_ok ni nj p0 p1 ->
  broadcastable dxC ni nj -> broadcastable dyC ni nj -> broadcastable dyG ni nj -> broadcastable dxG ni nj ->
  with_prev ni p0 * nj + ni * with_prev nj p1 <= length ja ->
  with_prev ni p0 * nj + ni * with_prev nj p1 <= length jb ->
  exists a b dist distperp, build_grid ja jb ni nj p0 p1 dxC dyC dyG dxG = Ok ((a, b), dist, distperp)
    /\ length dist = length a /\ length distperp = length a
    /\ forall k x y, nth_error a k = Some x -> nth_error b k = Some y ->
         (k < with_prev ni p0 * nj /\ exists i j i', x = node nj i j /\ y = node nj i' j /\ j < nj /\ precedes ni p0 i' i
            /\ bat dxC i j <> None /\ nth_error dist k = bat dxC i j /\ bat dyG i j <> None /\ nth_error distperp k = bat dyG i j)
         \/ (with_prev ni p0 * nj <= k /\ exists i j j', x = node nj i j /\ y = node nj i j' /\ i < ni /\ precedes nj p1 j' j
            /\ bat dyC i j <> None /\ nth_error dist k = bat dyC i j /\ bat dxG i j <> None /\ nth_error distperp k = bat dxG i j).
Proof.
  intros Hs B1 B2 B3 B4 La Lb. destruct (build_edges_listed ja jb ni nj p0 p1 Hs La Lb) as (a & b & E & HL).
  destruct (build_edgedata_ok dxC dyC ni nj p0 p1 B1 B2) as (d & Ed & Ld & D1 & D2).
  destruct (build_edgedata_ok dyG dxG ni nj p0 p1 B3 B4) as (q & Eq & Lq & Q1 & Q2).
  exists a, b, d, q. split.
  { unfold build_grid. rewrite E. cbn [bind]. rewrite Ed. cbn [bind]. rewrite Eq. reflexivity. }
  pose proof HL as (La' & Lb' & _). split; [congruence|]. split; [congruence|].
  intros k x y Hx Hy.
  assert (Hk : k < with_prev ni p0 * nj + ni * with_prev nj p1) by (rewrite <- La'; apply nth_error_Some; congruence).
  assert (Nd : nth_error d k <> None) by (apply nth_error_Some; lia).
  assert (Nq : nth_error q k <> None) by (apply nth_error_Some; lia).
  destruct (listed_edge _ _ _ _ _ _ _ _ _ HL Hx Hy) as [(i & j & i' & K & X & Y & H3 & H4 & H5)|(i & j & j' & K & X & Y & H3 & H4 & H5)].
  - left. split; [assumption|]. exists i, j, i'. pose proof (precedes_prev _ _ _ _ H4) as (_ & W & Hi).
    specialize (D1 i j W Hi H3). specialize (Q1 i j W Hi H3). rewrite <- K in D1, Q1. rewrite <- D1, <- Q1. auto 10.
  - right. split; [assumption|]. exists i, j, j'. pose proof (precedes_prev _ _ _ _ H4) as (_ & W & Hj).
    specialize (D2 i j H3 W Hj). specialize (Q2 i j H3 W Hj). rewrite <- K in D2, Q2. rewrite <- D2, <- Q2. auto 10.
Qed.

(** C21: maps of edge data *)
Lemma maps_of_edges {A} (nan : A) ja jb ni nj p0 p1 (ed : list A) :
  (p0 = true \/ 0 < ni) -> (p1 = true \/ 0 < nj) ->
  with_prev ni p0 * nj + ni * with_prev nj p1 <= length ja ->
  with_prev ni p0 * nj + ni * with_prev nj p1 <= length jb ->
  length ed = with_prev ni p0 * nj + ni * with_prev nj p1 ->
  exists a b Fi Fj, build_edges ja jb ni nj p0 p1 = Ok (a, b) /\ edgedata_to_maps nan ed ni nj p0 p1 = Ok (Fi, Fj)
    /\ has_shape Fi ni nj /\ has_shape Fj ni nj
    /\ (forall k i j, nth_error a k = Some (node nj i j) -> j < nj -> k < with_prev ni p0 * nj ->
          at2 Fi i j = nth_error ed k)
    /\ (forall k i j, nth_error a k = Some (node nj i j) -> j < nj -> with_prev ni p0 * nj <= k ->
          at2 Fj i j = nth_error ed k)
    /\ (forall i j, i < ni -> j < nj -> (forall i', ~ precedes ni p0 i' i) -> at2 Fi i j = Some nan)
    /\ (forall i j, i < ni -> j < nj -> (forall j', ~ precedes nj p1 j' j) -> at2 Fj i j = Some nan).
Proof.
  intros H0 H1 La Lb L.
  destruct (build_edges_listed ja jb ni nj p0 p1) as (a & b & E & HL); try assumption; [unfold sizes_ok; tauto|].
  destruct (edgedata_to_maps_ok nan ed ni nj p0 p1 H0 H1 L) as (Fi & Fj & EF & Si & Sj & Ai & Aj).
  exists a, b, Fi, Fj. do 4 (split; [assumption|]). split; [|split; [|split]].
  - intros k i j Hk Hj Hlt.
    destruct (nth_error b k) as [y|] eqn:Hy; [|apply nth_error_None in Hy; destruct HL as (? & ? & _); lia].
    destruct (listed_edge _ _ _ _ _ _ _ _ _ HL Hk Hy) as [(i2 & j2 & i' & K & X & Y & H3 & H4 & H5)|(i2 & j2 & j' & K & X & Y & H3 & H4 & H5)]; [|lia].
    apply node_inj in X as [-> ->]; [|assumption|assumption]. apply precedes_prev in H4 as (_ & W & Hi).
    rewrite Ai by assumption. destruct (Nat.ltb_spec i2 (wall p0)); [lia|]. rewrite <- K. reflexivity.
  - intros k i j Hk Hj Hge.
    destruct (nth_error b k) as [y|] eqn:Hy; [|apply nth_error_None in Hy; destruct HL as (? & ? & _); assert (k < length a) by (apply nth_error_Some; congruence); lia].
    destruct (listed_edge _ _ _ _ _ _ _ _ _ HL Hk Hy) as [(i2 & j2 & i' & K & X & Y & H3 & H4 & H5)|(i2 & j2 & j' & K & X & Y & H3 & H4 & H5)]; [lia|].
    pose proof (precedes_lt _ _ _ _ H4) as [_ Hj2].
    apply node_inj in X as [-> ->]; [|assumption|assumption]. apply precedes_prev in H4 as (_ & W & Hi).
    rewrite Aj by assumption. destruct (Nat.ltb_spec j2 (wall p1)); [lia|]. rewrite <- K. reflexivity.
  - intros i j Hi Hj Hn. rewrite Ai by assumption. destruct (Nat.ltb_spec i (wall p0)) as [|W]; [reflexivity|].
    exfalso. apply (Hn (prev ni i)). apply prev_precedes; assumption.
  - intros i j Hi Hj Hn. rewrite Aj by assumption. destruct (Nat.ltb_spec j (wall p1)) as [|W]; [reflexivity|].
    exfalso. apply (Hn (prev nj j)). apply prev_precedes; assumption.
Qed.

(** C21: round trip *)
Lemma maps_round_trip {A} (nan : A) ni nj p0 p1 (x y : nd A) :
  (p0 = true \/ 0 < ni) -> (p1 = true \/ 0 < nj) -> broadcastable x ni nj -> broadcastable y ni nj ->
  exists d Fi Fj, build_edgedata ni nj p0 p1 x y = Ok d /\ edgedata_to_maps nan d ni nj p0 p1 = Ok (Fi, Fj)
    /\ has_shape Fi ni nj /\ has_shape Fj ni nj
    /\ (forall i j, i < ni -> j < nj -> at2 Fi i j = if negb p0 && Nat.eqb i 0 then Some nan else bat x i j)
    /\ (forall i j, i < ni -> j < nj -> at2 Fj i j = if negb p1 && Nat.eqb j 0 then Some nan else bat y i j).
Proof.
  intros H0 H1 Bx By. destruct (build_edgedata_ok x y ni nj p0 p1 Bx By) as (d & Ed & Ld & D1 & D2).
  destruct (edgedata_to_maps_ok nan d ni nj p0 p1 H0 H1 Ld) as (Fi & Fj & EF & Si & Sj & Ai & Aj).
  exists d, Fi, Fj. do 4 (split; [assumption|]).
  assert (Hw : forall per i, Nat.ltb i (wall per) = (negb per && Nat.eqb i 0)%bool) by (intros [] []; reflexivity).
  split; intros i j Hi Hj.
  - rewrite Ai by assumption. rewrite <- Hw. destruct (Nat.ltb_spec i (wall p0)); [reflexivity|]. apply D1; assumption.
  - rewrite Aj by assumption. rewrite <- Hw. destruct (Nat.ltb_spec j (wall p1)); [reflexivity|]. apply D2; assumption.
Qed.

(** ** Grids with no cells *)
Lemma slice_nil {A} h : upto (@nil A) h = [] /\ from (@nil A) h = [].
Proof. unfold upto, from. split; [apply firstn_nil|apply skipn_nil]. Qed.
Lemma reshape2_nil {A} r c : (r = 0 \/ c = 0)%nat -> reshape2 (@nil A) (Z.of_nat r) (Z.of_nat c) = Ok (mk_nd [r; c] []).
Proof. intros H. apply (reshape2_ok (@nil A) r c). simpl. destruct H as [-> | ->]; lia. Qed.
Lemma broadcast2_nil {A} r c : (r = 0 \/ c = 0)%nat -> broadcast2 (mk_nd [r; c] (@nil A)) r c = Ok (repeat [] r).
Proof.
  intros H. unfold broadcast2. cbn [shape elems]. rewrite !Nat.eqb_refl. cbn [orb andb]. destruct H as [-> | ->]; [reflexivity|].
  cbn [seq mapM]. assert (G : forall a, mapM (fun _ : nat => Ok (@nil A)) (seq a r) = Ok (repeat [] r)); [|apply G].
  induction r as [|r IH]; intros a; [reflexivity|]. cbn [seq mapM]. rewrite IH. reflexivity.
Qed.

Lemma maps_empty {A} (nan : A) ni nj p0 p1 : ni = 0 \/ nj = 0 ->
  edgedata_to_maps nan [] ni nj p0 p1 = if Nat.eqb ni 0 && Nat.eqb nj 0 && negb (p0 && p1) then Err ValueError else Ok (repeat [] ni, repeat [] ni).
Proof.
  intros H. unfold edgedata_to_maps. rewrite !(proj1 (slice_nil _)), !(proj2 (slice_nil _)).
  assert (Hx : reshape2 (@nil A) (Z.of_nat ni - Z.of_nat (wall p0)) (Z.of_nat nj)
    = if Nat.eqb ni 0 && Nat.eqb nj 0 && negb p0 then Err ValueError else Ok (mk_nd [ni - wall p0; nj] [])).
  { destruct (Nat.le_gt_cases (wall p0) ni) as [L|L].
    - replace (Z.of_nat ni - Z.of_nat (wall p0))%Z with (Z.of_nat (ni - wall p0)) by lia. rewrite reshape2_nil by lia.
      destruct ni as [|ni]; [|reflexivity]. destruct p0; [|cbn in L; lia]. rewrite andb_false_r. reflexivity.
    - destruct p0; cbn in L; [lia|]. replace ni with 0 in * by lia. destruct nj as [|nj]; [reflexivity|].
      unfold reshape2. cbn [wall length]. replace (Z.of_nat 0 - Z.of_nat 1 =? -1)%Z with true by reflexivity.
      replace (Z.of_nat (S nj) <=? 0)%Z with false by (symmetry; apply Z.leb_gt; lia).
      change (Z.of_nat 0) with 0%Z. rewrite Z.div_0_l by lia. rewrite Z.mul_0_l. cbn [Z.eqb Nat.eqb andb Nat.sub]. rewrite Nat2Z.id. reflexivity. }
  assert (Hy : reshape2 (@nil A) (Z.of_nat ni) (Z.of_nat nj - Z.of_nat (wall p1))
    = if Nat.eqb ni 0 && Nat.eqb nj 0 && negb p1 then Err ValueError else Ok (mk_nd [ni; nj - wall p1] [])).
  { destruct (Nat.le_gt_cases (wall p1) nj) as [L|L].
    - replace (Z.of_nat nj - Z.of_nat (wall p1))%Z with (Z.of_nat (nj - wall p1)) by lia. rewrite reshape2_nil by lia.
      destruct nj as [|nj]; [|rewrite andb_false_r; reflexivity]. destruct p1; [|cbn in L; lia]. rewrite andb_false_r. reflexivity.
    - destruct p1; cbn in L; [lia|]. replace nj with 0 in * by lia. destruct ni as [|ni]; [reflexivity|].
      unfold reshape2. cbn [wall length]. replace (Z.of_nat 0 - Z.of_nat 1 =? -1)%Z with true by reflexivity.
      replace (Z.of_nat (S ni) =? -1)%Z with false by (symmetry; apply Z.eqb_neq; lia).
      replace (Z.of_nat (S ni) <=? 0)%Z with false by (symmetry; apply Z.leb_gt; lia).
      change (Z.of_nat 0) with 0%Z. rewrite Z.div_0_l by lia. rewrite Z.mul_0_r. cbn [Z.eqb Nat.eqb andb Nat.sub]. rewrite Nat2Z.id. reflexivity. }
  rewrite Hx, Hy. destruct (Nat.eqb ni 0 && Nat.eqb nj 0) eqn:E; cbn [andb].
  - apply andb_true_iff in E. destruct E as [E1 E2]. apply Nat.eqb_eq in E1, E2. subst. destruct p0, p1; reflexivity.
  - cbn [bind]. rewrite !broadcast2_nil by lia. cbn [bind]. destruct H as [-> | ->].
    + destruct p0, p1; reflexivity.
    + destruct ni as [|ni]; [discriminate E|]. f_equal. f_equal.
      * destruct p0; cbn [wall Nat.sub repeat firstn app]; rewrite ?Nat.sub_0_r; reflexivity.
      * clear. assert (G : forall n, map (fun rv : list A * list A => firstn (wall p1) (fst rv) ++ snd rv)
          (combine (repeat (@nil A) n) (repeat [] n)) = repeat [] n); [|apply G].
        induction n as [|n IH]; [reflexivity|]. cbn [repeat combine map fst snd]. rewrite IH, firstn_nil. reflexivity.
Qed.
