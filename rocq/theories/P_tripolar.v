(** * Proofs about tripolar grids *)
From Coq Require Import List ZArith Bool Lia.
From Verif Require Import Num Res Arr ArrLemmas Nd NdLemmas M_grid S_graph S_grid P_lib P_tab P_grid P_edgedata.
Import ListNotations.
Local Open Scope nat_scope.

(** row and column of the cell north of (j, i) *)
Definition north_row (nj j : nat) : nat := if Nat.eqb (S j) nj then j else S j.
Definition north_col (nj ni j i : nat) : nat := if Nat.eqb (S j) nj then ni - S i else i.

Lemma tripolar_idx nj ni r q : nj = S q -> nth_error (arange2 (nj + 1) ni) q = Some r ->
  tab (firstn nj (arange2 (nj + 1) ni) ++ [rev r]) (nj + 1) ni
    (fun j i => if Nat.ltb j nj then node ni j i else node ni (nj - 1) (ni - S i)).
Proof.
  intros Hq Hr. destruct (tab_arange2 (nj + 1) ni) as [L H]. split.
  - rewrite app_length, firstn_length, L. simpl. lia.
  - intros j Hj. destruct (Nat.ltb_spec j nj) as [Hlt|Hge].
    + destruct (H j Hj) as (r' & E & Lr & Hi). exists r'. rewrite nth_error_app1 by (rewrite firstn_length; lia).
      rewrite nth_error_firstn by assumption. auto.
    + assert (j = nj) by lia. subst j.
      assert (Lf : length (firstn nj (arange2 (nj + 1) ni)) = nj) by (rewrite firstn_length; lia).
      exists (rev r). rewrite nth_error_app2 by lia. rewrite Lf, Nat.sub_diag. split; [reflexivity|].
      destruct (H q ltac:(lia)) as (r' & E & Lr & Hi). rewrite Hr in E. injection E as <-.
      rewrite rev_length. split; [assumption|]. intros i Hlt.
      rewrite (nth_error_nth' _ 0) by (rewrite rev_length; lia). rewrite rev_nth by lia. rewrite Lr.
      rewrite <- (nth_error_nth' r 0) by lia. rewrite Hi by lia. f_equal. f_equal. lia.
Qed.

(** position of the edges, by cell *)
Definition tlisted (nj ni : nat) (a b : list nat) : Prop :=
  length a = nj * ni + nj * ni /\ length b = nj * ni + nj * ni
  /\ (forall j i, j < nj -> i < ni ->
        nth_error a (node ni j i) = Some (node ni j i)
        /\ nth_error b (node ni j i) = Some (node ni (north_row nj j) (north_col nj ni j i))
        /\ nth_error a (nj * ni + node ni j i) = Some (node ni j i)
        /\ nth_error b (nj * ni + node ni j i) = Some (node ni j (next ni i))).

Lemma upto_m1 {A} (l : list A) n : length l = n + 1 -> upto l (-1) = firstn n l.
Proof. intros L. unfold upto, bound. change (-1 <? 0)%Z with true. cbv iota. f_equal. rewrite L. lia. Qed.

Lemma tripolar_edges_listed ja jb nj ni : 1 <= nj -> nj * ni + nj * ni <= length ja -> nj * ni + nj * ni <= length jb ->
  exists a b, tripolar_edges ja jb nj ni = Ok (a, b) /\ tlisted nj ni a b.
Proof.
  intros Hn La Lb. destruct nj as [|q] eqn:Hq; [lia|]. rewrite <- Hq in *. unfold tripolar_edges.
  rewrite (Nat.mul_comm ni nj). rewrite <- Nat2Z.inj_add. rewrite !np_empty_ok by lia. cbn [bind]. rewrite Nat2Z.id.
  destruct (nth_error (arange2 (nj + 1) ni) q) as [r|] eqn:Er.
  2:{ apply nth_error_None in Er. destruct (tab_arange2 (nj + 1) ni) as [L _]. lia. }
  replace (match nj with 0 => Err IndexError | S q0 => match nth_error (arange2 (nj + 1) ni) q0 with Some r0 => Ok r0 | None => Err IndexError end end)
    with (Ok r) by (rewrite Hq in Er |- *; rewrite Er; reflexivity).
  cbn [bind]. pose proof (tripolar_idx nj ni r q Hq Er) as T.
  set (idx := firstn nj (arange2 (nj + 1) ni) ++ [rev r]) in *.
  rewrite !(upto_m1 idx nj) by apply T.
  assert (T1 : tab (firstn nj idx) nj ni (node ni)).
  { eapply tab_ext; [apply (tab_firstn idx (nj + 1)); [lia|exact T]|]. intros j i Hj Hi. cbv beta. destruct (Nat.ltb_spec j nj); [reflexivity|lia]. }
  assert (T2 : tab (skipn 1 idx) nj ni (fun j i => node ni (north_row nj j) (north_col nj ni j i))).
  { pose proof (tab_skipn idx (nj + 1) ni _ 1 T) as H. rewrite Nat.add_sub in H. eapply tab_ext; [exact H|]. intros j i Hj Hi. cbv beta.
    unfold north_row, north_col. rewrite Nat.add_1_r. destruct (Nat.ltb_spec (S j) nj), (Nat.eqb_spec (S j) nj); try lia; try reflexivity.
    f_equal. lia. }
  pose proof (tab_map_rollm1 _ _ _ _ T1) as T3.
  pose proof (tab_concat_length _ _ _ _ T1) as L1. pose proof (tab_concat_length _ _ _ _ T2) as L2. pose proof (tab_concat_length _ _ _ _ T3) as L3.
  rewrite !fill_upto by assumption. cbn [bind]. rewrite !fill_from by assumption. cbn [bind].
  eexists _, _. split; [reflexivity|]. split; [rewrite app_length; lia|]. split; [rewrite app_length; lia|].
  intros j i Hj Hi. pose proof (node_lt nj ni j i Hj Hi) as P.
  rewrite !nth_error_app1 by lia.
  rewrite !nth_error_app2 by lia. rewrite L1, L2. rewrite Nat.add_comm, Nat.add_sub.
  rewrite (tab_concat _ _ _ _ _ _ T1 Hj Hi), (tab_concat _ _ _ _ _ _ T2 Hj Hi), (tab_concat _ _ _ _ _ _ T3 Hj Hi). auto.
Qed.

Lemma tripolar_edges_0 ja jb ni : tripolar_edges ja jb 0 ni = Err IndexError.
Proof. unfold tripolar_edges. rewrite Nat.mul_0_r. reflexivity. Qed.

Lemma north_spec nj ni j i : j < nj -> i < ni ->
  north_row nj j < nj /\ north_col nj ni j i < ni /\ north nj ni j i (north_row nj j) (north_col nj ni j i)
  /\ forall j' i', j' < nj -> north nj ni j i j' i' -> j' = north_row nj j /\ i' = north_col nj ni j i.
Proof. unfold north_row, north_col, north. intros Hj Hi. destruct (Nat.eqb_spec (S j) nj); (split; [lia|]); (split; [lia|]); (split; [lia|]); intros; lia. Qed.

Lemma east_spec ni j i : i < ni -> next ni i < ni /\ east ni j i j (next ni i)
  /\ forall j' i', i' < ni -> east ni j i j' i' -> j' = j /\ i' = next ni i.
Proof. unfold next, east. intros Hi. destruct (Nat.eqb_spec (S i) ni); (split; [lia|]); (split; [lia|]); intros; lia. Qed.

(** C22: edges *)
Lemma tripolar_adjacency ja jb nj ni : 1 <= nj -> 2 * (nj * ni) <= length ja -> 2 * (nj * ni) <= length jb ->
  exists a b, tripolar_edges ja jb nj ni = Ok (a, b)
    /\ length a = 2 * (nj * ni) /\ length b = 2 * (nj * ni)
    /\ (forall k x y, nth_error a k = Some x -> nth_error b k = Some y ->
          exists j i j' i', x = node ni j i /\ y = node ni j' i' /\ j < nj /\ j' < nj /\ i < ni /\ i' < ni
            /\ if Nat.ltb k (nj * ni) then north nj ni j i j' i' else east ni j i j' i')
    /\ (forall j i j' i', j < nj -> j' < nj -> i < ni -> i' < ni -> north nj ni j i j' i' ->
          exists k, k < nj * ni /\ nth_error a k = Some (node ni j i) /\ nth_error b k = Some (node ni j' i'))
    /\ (forall j i j' i', j < nj -> j' < nj -> i < ni -> i' < ni -> east ni j i j' i' ->
          exists k, nj * ni <= k /\ nth_error a k = Some (node ni j i) /\ nth_error b k = Some (node ni j' i')).
Proof.
  intros Hn La Lb. destruct (tripolar_edges_listed ja jb nj ni Hn) as (a & b & E & L1 & L2 & H); try lia.
  exists a, b. split; [assumption|]. split; [lia|]. split; [lia|]. split; [|split].
  - intros k x y Hx Hy. assert (Hk : k < nj * ni + nj * ni) by (rewrite <- L1; apply nth_error_Some; congruence).
    destruct (Nat.ltb_spec k (nj * ni)) as [Hlt|Hge].
    + destruct (node_inv _ _ _ Hlt) as (j & i & Hj & Hi & ->). destruct (H j i Hj Hi) as (Q1 & Q2 & _).
      destruct (north_spec nj ni j i Hj Hi) as (N1 & N2 & N3 & _).
      exists j, i, (north_row nj j), (north_col nj ni j i). split; [congruence|]. split; [congruence|]. auto 10.
    + destruct (node_inv ni (k - nj * ni) nj) as (j & i & Hj & Hi & Ek); [lia|].
      assert (Ek' : k = nj * ni + node ni j i) by lia. destruct (H j i Hj Hi) as (_ & _ & Q1 & Q2). rewrite <- Ek' in Q1, Q2.
      destruct (east_spec ni j i Hi) as (N1 & N2 & _).
      exists j, i, j, (next ni i). split; [congruence|]. split; [congruence|]. auto 10.
  - intros j i j' i' Hj Hj' Hi Hi' HN. destruct (north_spec nj ni j i Hj Hi) as (_ & _ & _ & U).
    destruct (U j' i' Hj' HN) as [-> ->]. destruct (H j i Hj Hi) as (Q1 & Q2 & _). exists (node ni j i).
    split; [apply node_lt; assumption|]. auto.
  - intros j i j' i' Hj Hj' Hi Hi' HN. destruct (east_spec ni j i Hi) as (_ & _ & U).
    destruct (U j' i' Hi' HN) as [-> ->]. destruct (H j i Hj Hi) as (_ & _ & Q1 & Q2). exists (nj * ni + node ni j i).
    split; [lia|]. auto.
Qed.

(** C22: each pair of cells joined across the fold is listed in both directions *)
Lemma tripolar_fold_twice ja jb nj ni : 1 <= nj -> 2 * (nj * ni) <= length ja -> 2 * (nj * ni) <= length jb ->
  exists a b, tripolar_edges ja jb nj ni = Ok (a, b)
    /\ forall i i', i + S i' = ni -> i <> i' ->
         exists k k', k <> k'
           /\ nth_error (combine a b) k = Some (node ni (nj - 1) i, node ni (nj - 1) i')
           /\ nth_error (combine a b) k' = Some (node ni (nj - 1) i', node ni (nj - 1) i).
Proof.
  intros Hn La Lb. destruct (tripolar_edges_listed ja jb nj ni Hn) as (a & b & E & L1 & L2 & H); try lia.
  exists a, b. split; [assumption|]. intros i i' Hi Hne.
  destruct (H (nj - 1) i ltac:(lia) ltac:(lia)) as (Q1 & Q2 & _).
  destruct (H (nj - 1) i' ltac:(lia) ltac:(lia)) as (Q3 & Q4 & _).
  unfold north_row, north_col in *. destruct (Nat.eqb_spec (S (nj - 1)) nj); [|lia].
  replace (ni - S i) with i' in * by lia. replace (ni - S i') with i in * by lia.
  exists (node ni (nj - 1) i), (node ni (nj - 1) i'). split; [unfold node; lia|].
  split; apply nth_combine; auto.
Qed.

Lemma tripolar_not_once ja jb nj ni : 1 <= nj -> 2 <= ni -> 2 * (nj * ni) <= length ja -> 2 * (nj * ni) <= length jb ->
  exists a b, tripolar_edges ja jb nj ni = Ok (a, b)
    /\ ~ each_pair_once (tripolar_neighbours nj ni) (nj * ni) (combine a b).
Proof.
  intros Hn Hi La Lb. destruct (tripolar_fold_twice ja jb nj ni Hn La Lb) as (a & b & E & H).
  exists a, b. split; [assumption|]. intros [_ H2].
  destruct (H 0 (ni - 1) ltac:(lia) ltac:(lia)) as (k & k' & Hk & K1 & K2).
  destruct (H2 (node ni (nj - 1) 0) (node ni (nj - 1) (ni - 1))) as (k0 & e & _ & _ & U).
  - apply node_lt; lia.
  - apply node_lt; lia.
  - exists (nj - 1), 0, (nj - 1), (ni - 1). do 2 (split; [reflexivity|]). do 4 (split; [lia|]).
    left. right. lia.
  - pose proof (U k _ K1 (or_introl eq_refl)). pose proof (U k' _ K2 (or_intror eq_refl)). lia.
Qed.

Section Data.
  Context {A : Type}.

  Lemma trim_id (nj ni : nat) (x : list (list A)) :
    (if Nat.eqb nj (nj + 1) && Nat.eqb ni (ni + 2) then map (fun r => upto (skipn 1 r) (-1)) (upto x (-1)) else x) = x.
  Proof. destruct (Nat.eqb_spec nj (nj + 1)); [lia|reflexivity]. Qed.

  Lemma tripolar_edgedata_ok (v u : nd A) nj ni : broadcastable v nj ni -> broadcastable u nj ni ->
    exists d, tripolar_edgedata nj ni v u = Ok d /\ length d = 2 * (nj * ni)
      /\ forall j i, j < nj -> i < ni ->
           nth_error d (node ni j i) = bat v j i /\ nth_error d (nj * ni + node ni j i) = bat u j i.
  Proof.
    intros Hv Hu. destruct (broadcast2_ok _ _ _ Hv) as (tv & Ev & Sv & Bv). destruct (broadcast2_ok _ _ _ Hu) as (tu & Eu & Su & Bu).
    unfold tripolar_edgedata. rewrite Ev, Eu. cbn [bind]. rewrite !trim_id. eexists. split; [reflexivity|].
    pose proof (has_shape_concat _ _ _ Sv) as L1. pose proof (has_shape_concat _ _ _ Su) as L2.
    split; [rewrite app_length; lia|]. intros j i Hj Hi. pose proof (node_lt nj ni j i Hj Hi).
    rewrite nth_error_app1 by lia. rewrite nth_error_app2 by lia. rewrite L1, Nat.add_comm, Nat.add_sub.
    rewrite (concat_at2 _ _ _ _ _ Sv Hj Hi), (concat_at2 _ _ _ _ _ Su Hj Hi). auto.
  Qed.

  (** C22: metrics with the documented padding *)
  Lemma tripolar_padded (v u : nd A) nj ni : wf v -> wf u ->
    shape v = [nj + 1; ni + 2] \/ shape u = [nj + 1; ni + 2] -> tripolar_edgedata nj ni v u = Err ValueError.
  Proof.
    intros Wv Wu H.
    assert (N : forall x : nd A, shape x = [nj + 1; ni + 2] -> ~ broadcastable x nj ni).
    { intros x Hx (_ & _ & HF). unfold ndim, last_of in HF. rewrite Hx in HF. simpl in HF.
      inversion HF as [|? ? ? ? _ HF2]; subst. inversion HF2 as [|? ? ? ? [HF3|HF3] _]; subst; lia. }
    unfold tripolar_edgedata. destruct H as [H|H].
    - rewrite broadcast2_err by auto. reflexivity.
    - destruct (broadcast2 v nj ni) as [tv|e] eqn:Ev; cbn [bind].
      + rewrite broadcast2_err by auto. reflexivity.
      + rewrite broadcast2_err in Ev; [congruence|assumption|].
        intros B. destruct (broadcast2_ok _ _ _ B) as (t & E & _). congruence.
  Qed.

  (** C22: alignment *)
  Lemma tripolar_alignment ja jb nj ni (e1u e2v e2u e1v : nd A) : 1 <= nj ->
    broadcastable e1u nj ni -> broadcastable e2v nj ni -> broadcastable e2u nj ni -> broadcastable e1v nj ni ->
    2 * (nj * ni) <= length ja -> 2 * (nj * ni) <= length jb ->
    exists a b dist distperp, tripolar_grid ja jb nj ni e1u e2v e2u e1v = Ok ((a, b), dist, distperp)
      /\ length dist = length a /\ length distperp = length a /\ length b = length a
      /\ forall k x y, nth_error a k = Some x -> nth_error b k = Some y ->
           exists j i j' i', x = node ni j i /\ y = node ni j' i' /\ j < nj /\ j' < nj /\ i < ni /\ i' < ni
             /\ if Nat.ltb k (nj * ni)
                then north nj ni j i j' i' /\ nth_error dist k = bat e2v j i /\ nth_error distperp k = bat e1v j i
                else east ni j i j' i' /\ nth_error dist k = bat e1u j i /\ nth_error distperp k = bat e2u j i.
  Proof.
    intros Hn B1 B2 B3 B4 La Lb. destruct (tripolar_edges_listed ja jb nj ni Hn) as (a & b & E & L1 & L2 & H); try lia.
    destruct (tripolar_edgedata_ok e2v e1u nj ni B2 B1) as (d & Ed & Ld & D).
    destruct (tripolar_edgedata_ok e1v e2u nj ni B4 B3) as (q & Eq & Lq & Q).
    exists a, b, d, q. split.
    { unfold tripolar_grid. rewrite E. cbn [bind]. rewrite Ed. cbn [bind]. rewrite Eq. reflexivity. }
    split; [lia|]. split; [lia|]. split; [lia|]. intros k x y Hx Hy.
    assert (Hk : k < nj * ni + nj * ni) by (rewrite <- L1; apply nth_error_Some; congruence).
    destruct (Nat.ltb_spec k (nj * ni)) as [Hlt|Hge].
    - destruct (node_inv _ _ _ Hlt) as (j & i & Hj & Hi & ->). destruct (H j i Hj Hi) as (Q1 & Q2 & _).
      destruct (north_spec nj ni j i Hj Hi) as (N1 & N2 & N3 & _). destruct (D j i Hj Hi), (Q j i Hj Hi).
      exists j, i, (north_row nj j), (north_col nj ni j i). split; [congruence|]. split; [congruence|]. auto 10.
    - destruct (node_inv ni (k - nj * ni) nj) as (j & i & Hj & Hi & Ek); [lia|].
      assert (Ek' : k = nj * ni + node ni j i) by lia. destruct (H j i Hj Hi) as (_ & _ & Q1 & Q2). rewrite <- Ek' in Q1, Q2.
      destruct (east_spec ni j i Hi) as (N1 & N2 & _). destruct (D j i Hj Hi) as [_ D2], (Q j i Hj Hi) as [_ Q3]. rewrite <- Ek' in D2, Q3.
      exists j, i, j, (next ni i). split; [congruence|]. split; [congruence|]. auto 10.
  Qed.

  (** C22: edgedata_to_maps inverts _build_edgedata *)
  Lemma tripolar_maps_ok (ed : list A) nj ni : length ed = 2 * (nj * ni) ->
    exists v u, tripolar_maps ed nj ni = Ok (v, u) /\ shape v = [nj; ni] /\ shape u = [nj; ni] /\ wf v /\ wf u
      /\ forall j i, j < nj -> i < ni ->
           at_ v [j; i] = nth_error ed (node ni j i) /\ at_ u [j; i] = nth_error ed (nj * ni + node ni j i).
  Proof.
    intros L. unfold tripolar_maps. rewrite (Nat.mul_comm ni nj). unfold upto, from. rewrite bound_nonneg by lia. rewrite Nat2Z.id.
    rewrite reshape2_ok by (rewrite firstn_length; lia). cbn [bind]. rewrite reshape2_ok by (rewrite skipn_length; lia). cbn [bind].
    eexists _, _. split; [reflexivity|]. do 2 (split; [reflexivity|]). unfold wf, at_; simpl.
    split; [rewrite firstn_length; lia|]. split; [rewrite skipn_length; lia|]. intros j i Hj Hi.
    rewrite !Nat.mul_1_r, !Nat.add_0_r. fold (node ni j i). split; [apply nth_error_firstn; apply node_lt; assumption|apply nth_error_skipn].
  Qed.

  Lemma tripolar_round_trip (v u : nd A) nj ni : broadcastable v nj ni -> broadcastable u nj ni ->
    exists d v' u', tripolar_edgedata nj ni v u = Ok d /\ tripolar_maps d nj ni = Ok (v', u')
      /\ shape v' = [nj; ni] /\ shape u' = [nj; ni] /\ wf v' /\ wf u'
      /\ forall j i, j < nj -> i < ni -> at_ v' [j; i] = bat v j i /\ at_ u' [j; i] = bat u j i.
  Proof.
    intros Hv Hu. destruct (tripolar_edgedata_ok v u nj ni Hv Hu) as (d & Ed & Ld & D).
    destruct (tripolar_maps_ok d nj ni Ld) as (v' & u' & E & S1 & S2 & W1 & W2 & M).
    exists d, v', u'. do 6 (split; [assumption|]). intros j i Hj Hi. destruct (M j i Hj Hi) as [-> ->]. apply D; assumption.
  Qed.
End Data.
