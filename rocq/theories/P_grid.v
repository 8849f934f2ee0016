(** * Proofs about rectilinear grids *)
From Coq Require Import List ZArith Bool Lia.
From Verif Require Import Num Res Arr ArrLemmas Nd NdLemmas M_grid S_graph S_grid P_lib P_tab.
Import ListNotations.
Local Open Scope nat_scope.

Lemma assign_upto_ok {A} (a v : list A) h : (0 <= h)%Z -> Z.to_nat h <= length a -> length v = Z.to_nat h ->
  assign_upto a h v = Ok (v ++ skipn (Z.to_nat h) a).
Proof.
  intros Hh Ha Hv. unfold assign_upto, upto, fit. rewrite bound_nonneg by assumption. rewrite firstn_length.
  replace (length v =? Nat.min (Z.to_nat h) (length a)) with true by (symmetry; apply Nat.eqb_eq; lia).
  cbn [bind]. rewrite Hv. reflexivity.
Qed.

Lemma assign_from_ok {A} (a v : list A) h : (0 <= h)%Z -> length v = length a - Z.to_nat h ->
  assign_from a h v = Ok (firstn (Z.to_nat h) a ++ v).
Proof.
  intros Hh Hv. unfold assign_from, from, upto, fit. rewrite bound_nonneg by assumption. rewrite skipn_length.
  replace (length v =? length a - Z.to_nat h) with true by (symmetry; apply Nat.eqb_eq; lia). reflexivity.
Qed.

Lemma np_empty_ok {A} (junk : list A) E : (0 <= E)%Z -> np_empty junk E = Ok (firstn (Z.to_nat E) junk).
Proof. intros H. unfold np_empty. destruct (Z.ltb_spec E 0); [lia|reflexivity]. Qed.

(** an array of length p + q filled in two parts *)
Lemma fill_upto {A} (junk v : list A) p q : p + q <= length junk -> length v = p ->
  assign_upto (firstn (p + q) junk) (Z.of_nat p) v = Ok (v ++ skipn p (firstn (p + q) junk)).
Proof.
  intros Hj Hv. rewrite assign_upto_ok; rewrite ?Nat2Z.id; [reflexivity|lia|rewrite firstn_length; lia|assumption].
Qed.

Lemma fill_from {A} (junk v w : list A) p q : p + q <= length junk -> length v = p -> length w = q ->
  assign_from (v ++ skipn p (firstn (p + q) junk)) (Z.of_nat p) w = Ok (v ++ w).
Proof.
  intros Hj Hv Hw. rewrite assign_from_ok; [|lia|].
  - rewrite Nat2Z.id. rewrite firstn_app, Hv, Nat.sub_diag, firstn_all2 by lia. simpl. rewrite app_nil_r. reflexivity.
  - rewrite app_length, skipn_length, firstn_length, Nat2Z.id. lia.
Qed.

Lemma sub_wall n per : (per = true \/ 0 < n) -> (Z.of_nat n - Z.of_nat (wall per) = Z.of_nat (with_prev n per))%Z.
Proof. unfold wall, with_prev. destruct per; [lia|]. intros [H|H]; [discriminate|lia]. Qed.

Lemma with_prev_wall n per : with_prev n per = n - wall per.
Proof. unfold wall, with_prev. destruct per; lia. Qed.

(** what the two halves of the arrays are *)
Definition half_i (l : list nat) (ni nj : nat) (p0 : bool) (f : nat -> nat) : Prop :=
  exists t, l = concat t /\ tab t (with_prev ni p0) nj (fun i j => node nj (f (i + wall p0)) j).
Definition half_j (l : list nat) (ni nj : nat) (p1 : bool) (f : nat -> nat) : Prop :=
  exists t, l = concat t /\ tab t ni (with_prev nj p1) (fun i j => node nj i (f (j + wall p1))).

Lemma half_i_length l ni nj p0 f : half_i l ni nj p0 f -> length l = with_prev ni p0 * nj.
Proof. intros (t & -> & H). eapply tab_concat_length; eauto. Qed.
Lemma half_j_length l ni nj p1 f : half_j l ni nj p1 f -> length l = ni * with_prev nj p1.
Proof. intros (t & -> & H). eapply tab_concat_length; eauto. Qed.

Lemma half_i_a ni nj p0 : half_i (concat (skipn (wall p0) (arange2 ni nj))) ni nj p0 (fun i => i).
Proof.
  eexists. split; [reflexivity|]. rewrite with_prev_wall. apply tab_skipn. apply tab_arange2.
Qed.

Lemma half_j_a ni nj p1 : half_j (concat (map (skipn (wall p1)) (arange2 ni nj))) ni nj p1 (fun j => j).
Proof.
  eexists. split; [reflexivity|]. rewrite with_prev_wall.
  apply (tab_map_skipn _ _ _ (node nj)). apply tab_arange2.
Qed.

Lemma half_i_b ni nj p0 : p0 = true \/ 0 < ni ->
  half_i (concat (if p0 then roll 1 (arange2 ni nj)
                  else upto (arange2 ni nj) (Z.of_nat ni - Z.of_nat (wall p0)))) ni nj p0 (prev ni).
Proof.
  intros Hn. eexists. split; [reflexivity|]. destruct p0.
  - cbn [wall with_prev]. eapply tab_ext; [apply tab_roll; apply tab_arange2|]. intros i j Hi Hj. cbv beta.
    rewrite Nat.add_0_r. reflexivity.
  - unfold upto. rewrite sub_wall by assumption. rewrite bound_nonneg by lia. rewrite Nat2Z.id.
    eapply tab_ext; [apply tab_firstn with (n := ni); [simpl; lia|apply tab_arange2]|].
    intros i j Hi Hj. cbv beta. simpl wall. rewrite Nat.add_1_r. reflexivity.
Qed.

Lemma half_j_b ni nj p1 : p1 = true \/ 0 < nj ->
  half_j (concat (if p1 then map (roll 1) (arange2 ni nj)
                  else map (fun r => upto r (Z.of_nat nj - Z.of_nat (wall p1))) (arange2 ni nj))) ni nj p1 (prev nj).
Proof.
  intros Hn. eexists. split; [reflexivity|]. destruct p1.
  - cbn [wall with_prev]. eapply tab_ext; [apply tab_map_roll; apply tab_arange2|]. intros i j Hi Hj. cbv beta.
    rewrite Nat.add_0_r. reflexivity.
  - rewrite sub_wall by assumption.
    pose proof (tab_map_upto (arange2 ni nj) ni nj (node nj) (Z.of_nat (with_prev nj false)) ltac:(simpl; lia) (tab_arange2 ni nj)) as H.
    rewrite Nat2Z.id in H. eapply tab_ext; [exact H|].
    intros i j Hi Hj. cbv beta. simpl wall. rewrite Nat.add_1_r. reflexivity.
Qed.

(** the outcome, with positions of the edges *)
Lemma build_edges_halves ja jb ni nj p0 p1 :
  (p0 = true \/ 0 < ni) -> (p1 = true \/ 0 < nj) ->
  with_prev ni p0 * nj + ni * with_prev nj p1 <= length ja ->
  with_prev ni p0 * nj + ni * with_prev nj p1 <= length jb ->
  exists ai aj bi bj, build_edges ja jb ni nj p0 p1 = Ok (ai ++ aj, bi ++ bj)
    /\ half_i ai ni nj p0 (fun i => i) /\ half_j aj ni nj p1 (fun j => j)
    /\ half_i bi ni nj p0 (prev ni) /\ half_j bj ni nj p1 (prev nj).
Proof.
  intros H0 H1 La Lb.
  pose proof (half_i_a ni nj p0) as Ai. pose proof (half_j_a ni nj p1) as Aj.
  pose proof (half_i_b ni nj p0 H0) as Bi. pose proof (half_j_b ni nj p1 H1) as Bj.
  eexists _, _, _, _. split; [|split; [exact Ai|split; [exact Aj|split; [exact Bi|exact Bj]]]].
  pose proof (half_i_length _ _ _ _ _ Ai) as LAi. pose proof (half_j_length _ _ _ _ _ Aj) as LAj.
  pose proof (half_i_length _ _ _ _ _ Bi) as LBi. pose proof (half_j_length _ _ _ _ _ Bj) as LBj.
  unfold build_edges. rewrite !sub_wall in * by assumption.
  rewrite <- !Nat2Z.inj_mul, <- Nat2Z.inj_add. rewrite !np_empty_ok by lia. cbn [bind]. rewrite Nat2Z.id.
  replace (if p0 then _ else _ : res (list nat * list nat)) with
    (let! a := assign_upto (firstn (with_prev ni p0 * nj + ni * with_prev nj p1) ja)
                 (Z.of_nat (with_prev ni p0 * nj)) (concat (skipn (wall p0) (arange2 ni nj))) in
     let! b := assign_upto (firstn (with_prev ni p0 * nj + ni * with_prev nj p1) jb)
                 (Z.of_nat (with_prev ni p0 * nj))
                 (concat (if p0 then roll 1 (arange2 ni nj) else upto (arange2 ni nj) (Z.of_nat (with_prev ni p0)))) in
     Ok (a, b)) by (destruct p0; reflexivity).
  rewrite !fill_upto by assumption. cbn [bind].
  transitivity
    (let! a := assign_from (concat (skipn (wall p0) (arange2 ni nj)) ++ skipn (with_prev ni p0 * nj)
                             (firstn (with_prev ni p0 * nj + ni * with_prev nj p1) ja))
                 (Z.of_nat (with_prev ni p0 * nj)) (concat (map (skipn (wall p1)) (arange2 ni nj))) in
     let! b := assign_from (concat (if p0 then roll 1 (arange2 ni nj) else upto (arange2 ni nj) (Z.of_nat (with_prev ni p0)))
                             ++ skipn (with_prev ni p0 * nj)
                             (firstn (with_prev ni p0 * nj + ni * with_prev nj p1) jb))
                 (Z.of_nat (with_prev ni p0 * nj))
                 (concat (if p1 then map (roll 1) (arange2 ni nj)
                          else map (fun r => upto r (Z.of_nat (with_prev nj p1))) (arange2 ni nj))) in
     Ok (a, b)).
  - destruct p1; try reflexivity. cbn [wall].
    replace (map (skipn 0) (arange2 ni nj)) with (arange2 ni nj); [reflexivity|].
    symmetry. rewrite <- map_id. apply map_ext. reflexivity.
  - rewrite !fill_from by assumption. reflexivity.
Qed.

Lemma prev_precedes n per i : wall per <= i -> i < n -> precedes n per (prev n i) i.
Proof.
  unfold precedes, wall, prev. intros H Hi. split; [assumption|].
  destruct i as [|i]; destruct per; lia.
Qed.

Lemma precedes_prev n per y x : precedes n per y x -> y = prev n x /\ wall per <= x < n.
Proof. unfold precedes, wall, prev. intros (Hx & Hy & [->|(-> & -> & E)]); [destruct per|]; lia. Qed.

Lemma precedes_by_one n per y x : precedes n per y x -> by_one n per x y.
Proof.
  intros (Hx & Hy & H). split; [assumption|]. split; [assumption|].
  destruct H as [->|(-> & -> & E)]; [left; reflexivity|].
  right. right. split; [reflexivity|]. exists (-1)%Z. left. lia.
Qed.

Lemma by_one_precedes n per x y : by_one n per x y -> precedes n per y x \/ precedes n per x y.
Proof.
  unfold by_one, precedes. intros (Hx & Hy & [->|[->|(-> & k & [E|E])]]).
  - left. auto.
  - right. auto.
  - assert (k = 0 \/ k = -1)%Z as [->| ->] by nia; left; lia.
  - assert (k = 0 \/ k = 1)%Z as [->| ->] by nia; right; lia.
Qed.

(** the k-th edge *)
Lemma halves_nth ni nj p0 p1 ai aj f g k :
  half_i ai ni nj p0 f -> half_j aj ni nj p1 g -> k < with_prev ni p0 * nj + ni * with_prev nj p1 ->
  (k < with_prev ni p0 * nj -> forall i j, k = node nj i j -> i < with_prev ni p0 -> j < nj ->
      nth_error (ai ++ aj) k = Some (node nj (f (i + wall p0)) j))
  /\ (with_prev ni p0 * nj <= k -> forall i j, k = with_prev ni p0 * nj + node (with_prev nj p1) i j ->
      i < ni -> j < with_prev nj p1 ->
      nth_error (ai ++ aj) k = Some (node nj i (g (j + wall p1)))).
Proof.
  intros Hi Hj Hk. pose proof (half_i_length _ _ _ _ _ Hi) as Li. split.
  - intros Hlt i j -> Hil Hjl. rewrite nth_error_app1 by lia. destruct Hi as (t & -> & Ht).
    erewrite tab_concat; [|exact Ht|assumption|assumption]. reflexivity.
  - intros Hge i j -> Hil Hjl. rewrite nth_error_app2 by lia. rewrite Li, Nat.add_comm, Nat.add_sub.
    destruct Hj as (t & -> & Ht). erewrite tab_concat; [|exact Ht|assumption|assumption]. reflexivity.
Qed.

(** edge positions: every k belongs to one cell *)
Lemma edge_cases ni nj p0 p1 k : k < with_prev ni p0 * nj + ni * with_prev nj p1 ->
  (exists i j, k = node nj (i - wall p0) j /\ wall p0 <= i < ni /\ j < nj /\ k < with_prev ni p0 * nj)
  \/ (exists i j, k = with_prev ni p0 * nj + node (with_prev nj p1) i (j - wall p1) /\ i < ni /\ wall p1 <= j < nj
        /\ with_prev ni p0 * nj <= k).
Proof.
  intros H. destruct (Nat.lt_ge_cases k (with_prev ni p0 * nj)) as [Hl|Hg].
  - left. destruct (node_inv _ _ _ Hl) as (i & j & Hi & Hj & E). exists (i + wall p0), j.
    rewrite with_prev_wall in Hi. rewrite Nat.add_sub. repeat split; try assumption; lia.
  - right. destruct (node_inv (with_prev nj p1) (k - with_prev ni p0 * nj) ni) as (i & j & Hi & Hj & E); [lia|].
    exists i, (j + wall p1). rewrite with_prev_wall in Hj. rewrite Nat.add_sub, <- E. repeat split; try assumption; lia.
Qed.

Section Outcome.
  Variables (ni nj : nat) (p0 p1 : bool) (a b : list nat).
  Notation Ei := (with_prev ni p0 * nj).
  Notation E := (with_prev ni p0 * nj + ni * with_prev nj p1).

  (** a and b list the edges in the order of their cells *)
  Definition listed : Prop :=
    length a = E /\ length b = E
    /\ (forall i j, wall p0 <= i -> i < ni -> j < nj ->
          nth_error a (node nj (i - wall p0) j) = Some (node nj i j)
          /\ nth_error b (node nj (i - wall p0) j) = Some (node nj (prev ni i) j))
    /\ (forall i j, i < ni -> wall p1 <= j -> j < nj ->
          nth_error a (Ei + node (with_prev nj p1) i (j - wall p1)) = Some (node nj i j)
          /\ nth_error b (Ei + node (with_prev nj p1) i (j - wall p1)) = Some (node nj i (prev nj j))).
End Outcome.

Lemma pos_i ni nj p0 i j : wall p0 <= i -> i < ni -> j < nj -> node nj (i - wall p0) j < with_prev ni p0 * nj.
Proof. intros H Hi Hj. apply node_lt; [rewrite with_prev_wall; lia|assumption]. Qed.
Lemma pos_j ni nj p1 i j : i < ni -> wall p1 <= j -> j < nj ->
  node (with_prev nj p1) i (j - wall p1) < ni * with_prev nj p1.
Proof. intros Hi H Hj. apply node_lt; [assumption|rewrite with_prev_wall; lia]. Qed.

Lemma build_edges_listed ja jb ni nj p0 p1 : sizes_ok ni nj p0 p1 ->
  with_prev ni p0 * nj + ni * with_prev nj p1 <= length ja ->
  with_prev ni p0 * nj + ni * with_prev nj p1 <= length jb ->
  exists a b, build_edges ja jb ni nj p0 p1 = Ok (a, b) /\ listed ni nj p0 p1 a b.
Proof.
  intros [H0 H1] La Lb.
  destruct (Nat.eq_dec ni 0) as [->|Hi0]; [destruct (Nat.eq_dec nj 0) as [->|Hj0]|].
  - (* no cells *)
    exists [], []. split.
    + destruct p0, p1; reflexivity.
    + split; [simpl; lia|]. split; [simpl; lia|]. split; intros; lia.
  - destruct H0 as [->|[?|?]]; [|lia|lia].
    destruct (build_edges_halves ja jb 0 nj true p1 (or_introl eq_refl) ltac:(right; lia) La Lb) as (ai & aj & bi & bj & E & Ai & Aj & Bi & Bj).
    exists (ai ++ aj), (bi ++ bj). split; [assumption|].
    apply half_i_length in Ai, Bi. apply half_j_length in Aj, Bj.
    split; [rewrite app_length; lia|]. split; [rewrite app_length; lia|]. split; intros; lia.
  - destruct (Nat.eq_dec nj 0) as [->|Hj0].
    + destruct H1 as [->|[?|?]]; [|lia|lia].
      destruct (build_edges_halves ja jb ni 0 p0 true ltac:(right; lia) (or_introl eq_refl) La Lb) as (ai & aj & bi & bj & E & Ai & Aj & Bi & Bj).
      exists (ai ++ aj), (bi ++ bj). split; [assumption|].
      apply half_i_length in Ai, Bi. apply half_j_length in Aj, Bj.
      split; [rewrite app_length; lia|]. split; [rewrite app_length; lia|]. split; intros; lia.
    + destruct (build_edges_halves ja jb ni nj p0 p1) as (ai & aj & bi & bj & E & Ai & Aj & Bi & Bj); try assumption; try (right; lia).
      exists (ai ++ aj), (bi ++ bj). split; [assumption|].
      pose proof (half_i_length _ _ _ _ _ Ai). pose proof (half_j_length _ _ _ _ _ Aj).
      pose proof (half_i_length _ _ _ _ _ Bi). pose proof (half_j_length _ _ _ _ _ Bj).
      split; [rewrite app_length; lia|]. split; [rewrite app_length; lia|]. split.
      * intros i j Hw Hi Hj. pose proof (pos_i ni nj p0 i j Hw Hi Hj) as P.
        assert (Hl : i - wall p0 < with_prev ni p0) by (rewrite with_prev_wall; lia).
        pose proof (proj1 (halves_nth ni nj p0 p1 _ _ _ _ (node nj (i - wall p0) j) Ai Aj ltac:(lia)) P _ _ eq_refl Hl Hj) as Q1.
        pose proof (proj1 (halves_nth ni nj p0 p1 _ _ _ _ (node nj (i - wall p0) j) Bi Bj ltac:(lia)) P _ _ eq_refl Hl Hj) as Q2.
        rewrite Nat.sub_add in Q1, Q2 by assumption. split; assumption.
      * intros i j Hi Hw Hj. pose proof (pos_j ni nj p1 i j Hi Hw Hj) as P.
        assert (Hl : j - wall p1 < with_prev nj p1) by (rewrite with_prev_wall; lia).
        set (k := with_prev ni p0 * nj + node (with_prev nj p1) i (j - wall p1)).
        pose proof (proj2 (halves_nth ni nj p0 p1 _ _ _ _ k Ai Aj ltac:(unfold k; lia)) ltac:(unfold k; lia) _ _ eq_refl Hi Hl) as Q1.
        pose proof (proj2 (halves_nth ni nj p0 p1 _ _ _ _ k Bi Bj ltac:(unfold k; lia)) ltac:(unfold k; lia) _ _ eq_refl Hi Hl) as Q2.
        rewrite Nat.sub_add in Q1, Q2 by assumption. split; assumption.
Qed.

(** otherwise np.empty is given a negative size *)
Lemma build_edges_raises ja jb ni nj p0 p1 : ~ sizes_ok ni nj p0 p1 -> build_edges ja jb ni nj p0 p1 = Err ValueError.
Proof.
  intros H. unfold sizes_ok in H.
  assert (Hneg : ((Z.of_nat ni - Z.of_nat (wall p0)) * Z.of_nat nj + Z.of_nat ni * (Z.of_nat nj - Z.of_nat (wall p1)) < 0)%Z).
  { assert (C : (p0 = false /\ ni = 0 /\ 0 < nj) \/ (p1 = false /\ nj = 0 /\ 0 < ni)).
    { destruct p0, p1, (Nat.eq_dec ni 0), (Nat.eq_dec nj 0); try (left; lia); try (right; lia); exfalso; apply H; lia. }
    destruct C as [(-> & -> & Hn)|(-> & -> & Hn)]; simpl wall; lia. }
  unfold build_edges, np_empty. destruct (Z.ltb_spec ((Z.of_nat ni - Z.of_nat (wall p0)) * Z.of_nat nj + Z.of_nat ni * (Z.of_nat nj - Z.of_nat (wall p1))) 0); [reflexivity|lia].
Qed.

Lemma nth_combine {A B} (a : list A) (b : list B) k x y :
  nth_error (combine a b) k = Some (x, y) <-> nth_error a k = Some x /\ nth_error b k = Some y.
Proof.
  revert b k. induction a as [|u a IH]; intros [|v b] [|k]; simpl; try (split; [discriminate|intros [? ?]; discriminate]).
  - split; [intros E; injection E as <- <-; auto|intros [E1 E2]; congruence].
  - apply IH.
Qed.

(** what the k-th edge is *)
Lemma listed_edge ni nj p0 p1 a b k x y : listed ni nj p0 p1 a b ->
  nth_error a k = Some x -> nth_error b k = Some y ->
  (exists i j i', k = node nj (i - wall p0) j /\ x = node nj i j /\ y = node nj i' j /\ j < nj /\ precedes ni p0 i' i
      /\ k < with_prev ni p0 * nj)
  \/ (exists i j j', k = with_prev ni p0 * nj + node (with_prev nj p1) i (j - wall p1)
      /\ x = node nj i j /\ y = node nj i j' /\ i < ni /\ precedes nj p1 j' j /\ with_prev ni p0 * nj <= k).
Proof.
  intros (La & Lb & Hi & Hj) Hx Hy.
  assert (Hk : k < with_prev ni p0 * nj + ni * with_prev nj p1) by (rewrite <- La; apply nth_error_Some; congruence).
  destruct (edge_cases _ _ _ _ _ Hk) as [(i & j & E & [Hw Hil] & Hjl & Hlt)|(i & j & E & Hil & [Hw Hjl] & Hge)].
  - left. destruct (Hi i j Hw Hil Hjl) as [Q1 Q2]. exists i, j, (prev ni i). subst k.
    split; [reflexivity|]. split; [congruence|]. split; [congruence|]. split; [assumption|].
    split; [apply prev_precedes; assumption|assumption].
  - right. destruct (Hj i j Hil Hw Hjl) as [Q1 Q2]. exists i, j, (prev nj j). subst k.
    split; [reflexivity|]. split; [congruence|]. split; [congruence|]. split; [assumption|].
    split; [apply prev_precedes; assumption|assumption].
Qed.

Lemma listed_has ni nj p0 p1 a b : listed ni nj p0 p1 a b ->
  (forall i j i', j < nj -> precedes ni p0 i' i ->
     nth_error a (node nj (i - wall p0) j) = Some (node nj i j)
     /\ nth_error b (node nj (i - wall p0) j) = Some (node nj i' j))
  /\ (forall i j j', i < ni -> precedes nj p1 j' j ->
     nth_error a (with_prev ni p0 * nj + node (with_prev nj p1) i (j - wall p1)) = Some (node nj i j)
     /\ nth_error b (with_prev ni p0 * nj + node (with_prev nj p1) i (j - wall p1)) = Some (node nj i j')).
Proof.
  intros (La & Lb & Hi & Hj). split.
  - intros i j i' Hlt Hp. apply precedes_prev in Hp as (-> & Hw & Hil). apply Hi; assumption.
  - intros i j j' Hlt Hp. apply precedes_prev in Hp as (-> & Hw & Hil). apply Hj; assumption.
Qed.

Lemma precedes_lt n per y x : precedes n per y x -> y < n /\ x < n.
Proof. intros (H1 & H2 & _). auto. Qed.

(** C20 *)
Lemma build_edges_adjacency ja jb ni nj p0 p1 : sizes_ok ni nj p0 p1 ->
  with_prev ni p0 * nj + ni * with_prev nj p1 <= length ja ->
  with_prev ni p0 * nj + ni * with_prev nj p1 <= length jb ->
  exists a b, build_edges ja jb ni nj p0 p1 = Ok (a, b)
    /\ length a = with_prev ni p0 * nj + ni * with_prev nj p1 /\ length b = length a
    /\ in_range (combine a b) (ni * nj)
    /\ forall c c', (exists e, In e (combine a b) /\ joins e c c') <-> neighbours ni nj p0 p1 c c'.
Proof.
  intros Hs Ha Hb. destruct (build_edges_listed ja jb ni nj p0 p1 Hs Ha Hb) as (a & b & E & HL).
  exists a, b. split; [assumption|]. destruct (HL) as (La & Lb & _). split; [assumption|]. split; [congruence|].
  assert (Hedge : forall x y, In (x, y) (combine a b) ->
    (exists i j i', x = node nj i j /\ y = node nj i' j /\ j < nj /\ precedes ni p0 i' i)
    \/ (exists i j j', x = node nj i j /\ y = node nj i j' /\ i < ni /\ precedes nj p1 j' j)).
  { intros x y Hin. apply In_nth_error in Hin as [k Hk]. apply nth_combine in Hk as [Hx Hy].
    destruct (listed_edge _ _ _ _ _ _ _ _ _ HL Hx Hy) as [(i & j & i' & _ & H1 & H2 & H3 & H4 & _)|(i & j & j' & _ & H1 & H2 & H3 & H4 & _)].
    - left. exists i, j, i'. auto.
    - right. exists i, j, j'. auto. }
  split.
  - intros x y Hin. destruct (Hedge x y Hin) as [(i & j & i' & -> & -> & H3 & H4)|(i & j & j' & -> & -> & H3 & H4)];
      apply precedes_lt in H4 as [H4 H5]; split; apply node_lt; assumption.
  - intros c c'. split.
    + intros ([x y] & Hin & Hj).
      assert (Hsym : forall c c', neighbours ni nj p0 p1 c c' -> neighbours ni nj p0 p1 c' c).
      { clear. intros c c' (i & j & i' & j' & E1 & E2 & H1 & H2 & H3 & H4 & H).
        exists i', j', i, j. do 6 (split; [assumption|]).
        assert (Hs : forall n per x y, by_one n per x y -> by_one n per y x).
        { intros n per x y (Hx & Hy & [Q|[Q|(Q & k & Hk)]]); split; try assumption; split; try assumption; auto.
          right. right. split; [assumption|]. exists (- k)%Z. destruct Hk as [Hk|Hk]; [right|left]; lia. }
        destruct H as [[-> H]|[-> H]]; [left|right]; split; auto. }
      assert (Hn : neighbours ni nj p0 p1 x y).
      { destruct (Hedge x y Hin) as [(i & j & i' & -> & -> & H3 & H4)|(i & j & j' & -> & -> & H3 & H4)];
          pose proof (precedes_lt _ _ _ _ H4) as [H5 H6].
        - exists i, j, i', j. repeat (split; [first [assumption|reflexivity]|]). left. split; [reflexivity|]. apply precedes_by_one. assumption.
        - exists i, j, i, j'. repeat (split; [first [assumption|reflexivity]|]). right. split; [reflexivity|]. apply precedes_by_one. assumption. }
      destruct Hj as [E2|E2]; injection E2 as <- <-; auto.
    + intros (i & j & i' & j' & -> & -> & H1 & H2 & H3 & H4 & H).
      destruct (listed_has _ _ _ _ _ _ HL) as [Hi Hj].
      destruct H as [[<- H]|[<- H]]; apply by_one_precedes in H as [H|H].
      * exists (node nj i j, node nj i' j). split; [|left; reflexivity].
        apply (nth_error_In _ (node nj (i - wall p0) j)). apply nth_combine. apply Hi; assumption.
      * exists (node nj i' j, node nj i j). split; [|right; reflexivity].
        apply (nth_error_In _ (node nj (i' - wall p0) j)). apply nth_combine. apply Hi; assumption.
      * exists (node nj i j, node nj i j'). split; [|left; reflexivity].
        apply (nth_error_In _ (with_prev ni p0 * nj + node (with_prev nj p1) i (j - wall p1))). apply nth_combine. apply Hj; assumption.
      * exists (node nj i j', node nj i j). split; [|right; reflexivity].
        apply (nth_error_In _ (with_prev ni p0 * nj + node (with_prev nj p1) i (j' - wall p1))). apply nth_combine. apply Hj; assumption.
Qed.

Lemma precedes_fun n per y y' x : precedes n per y x -> precedes n per y' x -> y = y'.
Proof. intros H H'. apply precedes_prev in H as [-> _]. apply precedes_prev in H' as [-> _]. reflexivity. Qed.

Lemma precedes_anti n per x y : (per = true -> 2 < n) -> precedes n per x y -> precedes n per y x -> False.
Proof. intros Hn (H1 & H2 & H3) (_ & _ & H4). destruct H3 as [->|(-> & -> & H3)], H4 as [H4|(Hp & H4 & H5)]; try (specialize (Hn eq_refl)); try specialize (Hn Hp); lia. Qed.

Lemma precedes_irrefl n per x : (per = true -> 2 < n) -> precedes n per x x -> False.
Proof. intros Hn (H1 & H2 & [H3|(Hp & H3 & H4)]); try specialize (Hn Hp); lia. Qed.

(** C20: each pair once *)
Lemma build_edges_once ja jb ni nj p0 p1 : sizes_ok ni nj p0 p1 ->
  (p0 = true -> 2 < ni) -> (p1 = true -> 2 < nj) ->
  with_prev ni p0 * nj + ni * with_prev nj p1 <= length ja ->
  with_prev ni p0 * nj + ni * with_prev nj p1 <= length jb ->
  exists a b, build_edges ja jb ni nj p0 p1 = Ok (a, b)
    /\ each_pair_once (neighbours ni nj p0 p1) (ni * nj) (combine a b).
Proof.
  intros Hs Hp0 Hp1 Ha Hb.
  destruct (build_edges_adjacency ja jb ni nj p0 p1 Hs Ha Hb) as (a & b & E & La & Lb & Hr & Hadj).
  destruct (build_edges_listed ja jb ni nj p0 p1 Hs Ha Hb) as (a' & b' & E' & HL).
  rewrite E in E'. injection E' as <- <-. exists a, b. split; [assumption|]. split.
  - intros k x y Hk. pose proof (nth_error_In _ _ Hk) as Hin. destruct (Hr x y Hin). split; [assumption|]. split; [assumption|].
    apply Hadj. exists (x, y). split; [assumption|]. left. reflexivity.
  - intros m n Hm Hn Hadj'. apply Hadj in Hadj' as ([x y] & Hin & Hj). apply In_nth_error in Hin as [k Hk].
    exists k, (x, y). split; [assumption|]. split; [assumption|]. intros k' [x' y'] Hk' Hj'.
    assert (HH : (x', y') = (x, y) \/ (x', y') = (y, x)) by (unfold joins in *; destruct Hj as [Hj|Hj], Hj' as [Hj'|Hj']; rewrite Hj' ; injection Hj as -> ->; auto).
    apply nth_combine in Hk as [Hx Hy]. apply nth_combine in Hk' as [Hx' Hy'].
    destruct (listed_edge _ _ _ _ _ _ _ _ _ HL Hx Hy) as [(i & j & i2 & K & X & Y & H3 & H4 & _)|(i & j & j2 & K & X & Y & H3 & H4 & _)];
    destruct (listed_edge _ _ _ _ _ _ _ _ _ HL Hx' Hy') as [(u & v & u2 & K' & X' & Y' & H3' & H4' & _)|(u & v & v2 & K' & X' & Y' & H3' & H4' & _)];
    pose proof (precedes_lt _ _ _ _ H4) as [P1 P2]; pose proof (precedes_lt _ _ _ _ H4') as [P3 P4];
    destruct HH as [HH|HH]; injection HH as E1 E2; rewrite X', ?X, ?Y in E1; rewrite Y', ?X, ?Y in E2;
    apply node_inj in E1 as [? ?]; try assumption; apply node_inj in E2 as [? ?]; try assumption; subst;
    try reflexivity; exfalso;
    first [ eapply (precedes_anti ni p0); eassumption | eapply (precedes_anti nj p1); eassumption
          | eapply (precedes_irrefl ni p0); eassumption | eapply (precedes_irrefl nj p1); eassumption ].
Qed.
