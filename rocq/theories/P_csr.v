(** * edges_to_csr: proofs *)
From Coq Require Import ZArith Bool List Lia.
From Verif Require Import Num Res Arr ArrLemmas S_graph M_graph P_bfs.
Import ListNotations.

(** both directions of each edge, in order *)
Definition half (edges : list (nat * nat)) : list (nat * nat) :=
  flat_map (fun e => [e; (snd e, fst e)]) edges.
Definition at_node (h : list (nat * nat)) (m : nat) : list nat :=
  map snd (filter (fun e => Nat.eqb (fst e) m) h).

Lemma nbrs_half edges m : nbrs edges m = at_node (half edges) m.
Proof.
  induction edges as [|[a b] r IH]; [reflexivity|]. cbn [nbrs half flat_map app fst snd]. unfold at_node in *.
  cbn [filter fst snd]. rewrite IH. fold (half r). destruct (Nat.eqb a m), (Nat.eqb b m); reflexivity.
Qed.

Lemma at_node_app h h' m : at_node (h ++ h') m = at_node h m ++ at_node h' m.
Proof. unfold at_node. rewrite filter_app, map_app. reflexivity. Qed.

Lemma at_node_snoc h n v m : at_node (h ++ [(n, v)]) m = at_node h m ++ (if Nat.eqb n m then [v] else []).
Proof. rewrite at_node_app. unfold at_node. simpl. destruct (Nat.eqb n m); reflexivity. Qed.

(** a loop doing two things per edge is a loop over half edges *)
Lemma for_each_half {S} (f : nat -> nat -> S -> res S) edges s :
  for_each edges (fun e st => let! st := f (fst e) (snd e) st in f (snd e) (fst e) st) s
  = for_each (half edges) (fun e st => f (fst e) (snd e) st) s.
Proof.
  revert s. induction edges as [|[a b] r IH]; intros s; [reflexivity|].
  cbn [for_each half flat_map app fst snd]. destruct (f a b s) as [s1|]; cbn [bind]; [|reflexivity].
  destruct (f b a s1) as [s2|]; cbn [bind]; [|reflexivity]. apply IH.
Qed.

Lemma in_half edges a b : In (a, b) (half edges) <-> In (a, b) edges \/ In (b, a) edges.
Proof.
  unfold half. rewrite in_flat_map. split.
  - intros ([x y] & Hin & [E|[E|[]]]); simpl in E; injection E as <- <-; auto.
  - intros [H|H]; [exists (a, b)|exists (b, a)]; simpl; auto.
Qed.

Lemma half_range edges N : in_range edges N -> forall a b, In (a, b) (half edges) -> a < N /\ b < N.
Proof. intros H a b Hin. apply in_half in Hin as [Hin|Hin]; apply H in Hin; tauto. Qed.

Lemma length_half edges : length (half edges) = 2 * length edges.
Proof. unfold half. induction edges as [|e r IH]; simpl in *; lia. Qed.

Section Csr.
  Variables (edges : list (nat * nat)) (N : nat).
  Hypothesis Hr : in_range edges N.

  Notation deg m := (length (nbrs edges m)).
  Notation P := (deg_sum edges).

  Lemma P_mono m n : m <= n -> P m <= P n.
  Proof. induction 1; simpl; lia. Qed.

  Lemma P_step m n : m < n -> P m + deg m <= P n.
  Proof. intros H. apply (P_mono (S m) n) in H. exact H. Qed.

  Lemma incr_ok x n v : nth_error x n = Some v -> incr x n = Ok (upd x n (S v)).
  Proof.
    intros H. unfold incr. rewrite (get_ok _ _ _ H). cbn [bind]. apply set_ok. eapply nth_error_lt; eauto.
  Qed.

  Lemma degrees_ok : exists d, degrees edges N = Ok d /\ length d = N
    /\ forall m, m < N -> nth_error d m = Some (deg m).
  Proof.
    unfold degrees. rewrite (for_each_half (fun n _ s => incr s n)).
    destruct (for_each_inv (fun pre d => length d = N /\ forall m, m < N -> nth_error d m = Some (length (at_node pre m)))
      (half edges) (fun e st => incr st (fst e)) (repeat 0 N)) as (d & E & H1 & H2).
    - split; [apply repeat_length|]. intros m Hm. apply nth_error_repeat_lt. assumption.
    - intros pre [n v] post d E [H1 H2]. cbn [fst].
      assert (Hn : n < N) by (apply (half_range edges N Hr n v); rewrite E; apply in_or_app; right; left; reflexivity).
      rewrite (incr_ok d n _ (H2 n Hn)). eexists. split; [reflexivity|]. rewrite length_upd. split; [assumption|].
      intros m Hm. rewrite at_node_snoc, app_length. destruct (Nat.eqb_spec n m) as [<-|Hne].
      + rewrite nth_error_upd_eq by lia. f_equal. simpl. lia.
      + rewrite nth_error_upd_neq by assumption. simpl. rewrite Nat.add_0_r. auto.
    - exists d. split; [exact E|]. split; [assumption|]. intros m Hm. rewrite nbrs_half. auto.
  Qed.

  Lemma cumul_ok junk d : length d = N -> (forall m, m < N -> nth_error d m = Some (deg m)) -> N < length junk ->
    exists p, cumul junk d N = Ok p /\ length p = S N /\ forall m, m <= N -> nth_error p m = Some (P m).
  Proof.
    intros Hd Hdeg Hj. unfold cumul.
    assert (Hl : length (firstn (N + 1) junk) = S N) by (rewrite firstn_length; lia).
    rewrite set_ok by lia. cbn [bind].
    destruct (for_range_inv (fun i p => length p = S N /\ forall m, m <= i -> nth_error p m = Some (P m)) 0 N
      (fun i indptr => let! p := get indptr i in let! d := get d i in set indptr (i + 1) (p + d))
      (upd (firstn (N + 1) junk) 0 0)) as (p & E & H1 & H2).
    - lia.
    - rewrite length_upd. split; [assumption|]. intros m Hm. replace m with 0 by lia. rewrite nth_error_upd_eq by lia.
      reflexivity.
    - intros i p Hi [H1 H2]. rewrite (get_ok p i _ (H2 i (le_n _))). cbn [bind].
      rewrite (get_ok d i _ (Hdeg i ltac:(lia))). cbn [bind]. rewrite set_ok by lia.
      eexists. split; [reflexivity|]. rewrite length_upd. split; [assumption|]. intros m Hm.
      destruct (Nat.eq_dec m (S i)) as [->|Hne].
      + rewrite Nat.add_1_r. rewrite nth_error_upd_eq by lia. reflexivity.
      + rewrite nth_error_upd_neq by lia. apply H2. lia.
    - exists p. auto.
  Qed.

  (** after inserting the half edges [pre] *)
  Definition filled (p0 : list nat) (tot : nat) (pre : list (nat * nat)) (st : list nat * list nat) : Prop :=
    let (ind, ctr) := st in
    length ind = tot /\ length ctr = S N
    /\ (forall m, m < N -> nth_error ctr m = Some (P m + length (at_node pre m)))
    /\ forall m j x, m < N -> nth_error (at_node pre m) j = Some x -> nth_error ind (P m + j) = Some x.

  Lemma fill_ok junk p : length p = S N -> (forall m, m <= N -> nth_error p m = Some (P m)) -> P N <= length junk ->
    exists st, for_each edges (fun e st => let! st := insert (fst e) (snd e) st in insert (snd e) (fst e) st)
                 (firstn (P N) junk, p) = Ok st
      /\ filled p (P N) (half edges) st.
  Proof.
    intros Hp HpP Hj. rewrite (for_each_half insert).
    apply (for_each_inv (filled p (P N))).
    - split; [rewrite firstn_length; lia|]. split; [assumption|]. split.
      + intros m Hm. rewrite Nat.add_0_r. apply HpP. lia.
      + intros m [|j] x Hm Hx; discriminate.
    - intros pre [n v] post [ind ctr] E (H1 & H2 & H3 & H4). cbn [fst snd].
      assert (Hn : n < N) by (apply (half_range edges N Hr n v); rewrite E; apply in_or_app; right; left; reflexivity).
      assert (Hall : forall m, length (at_node pre m) <= deg m).
      { intros m. rewrite nbrs_half, E, at_node_app, app_length. lia. }
      assert (Hroom : length (at_node pre n) < deg n).
      { rewrite nbrs_half, E, at_node_app, app_length. unfold at_node at 3. simpl. rewrite Nat.eqb_refl. simpl. lia. }
      unfold insert. rewrite (get_ok ctr n _ (H3 n Hn)). cbn [bind].
      pose proof (P_step n N Hn) as HnN.
      rewrite set_ok by lia. cbn [bind]. rewrite (incr_ok ctr n _ (H3 n Hn)). cbn [bind].
      eexists. split; [reflexivity|]. unfold filled. rewrite !length_upd. split; [assumption|]. split; [assumption|]. split.
      + intros m Hm. rewrite at_node_snoc, app_length. destruct (Nat.eqb_spec n m) as [<-|Hne].
        * rewrite nth_error_upd_eq by lia. f_equal. simpl. lia.
        * rewrite nth_error_upd_neq by assumption. simpl. rewrite H3 by assumption. f_equal. lia.
      + intros m j x Hm Hx. rewrite at_node_snoc in Hx. destruct (Nat.eqb_spec n m) as [<-|Hne].
        * destruct (Nat.eq_dec j (length (at_node pre n))) as [->|Hj'].
          { rewrite nth_error_app2, Nat.sub_diag in Hx by lia. simpl in Hx. rewrite nth_error_upd_eq by lia. assumption. }
          { pose proof (nth_error_lt _ _ _ Hx) as Hlt. rewrite app_length in Hlt. simpl in Hlt.
            rewrite nth_error_app1 in Hx by lia. rewrite nth_error_upd_neq by lia. apply H4; assumption. }
        * rewrite app_nil_r in Hx. pose proof (nth_error_lt _ _ _ Hx) as Hlt. specialize (Hall m).
          rewrite nth_error_upd_neq; [apply H4; assumption|].
          destruct (Nat.lt_total n m) as [Hc|[Hc|Hc]]; [|congruence|].
          { pose proof (P_step n m Hc). lia. }
          { pose proof (P_step m n Hc). lia. }
  Qed.

  Lemma sum_list l acc : fold_left Nat.add l acc = acc + list_sum l.
  Proof. revert acc. induction l as [|x l IH]; intros acc; simpl; [lia|]. rewrite IH. lia. Qed.

  Lemma sum_prefix d : length d = N -> (forall m, m < N -> nth_error d m = Some (deg m)) ->
    forall k, k <= N -> list_sum (firstn k d) = P k.
  Proof.
    intros Hl Hd. induction k as [|k IH]; intros Hk; [reflexivity|].
    assert (E : firstn (S k) d = firstn k d ++ [deg k]).
    { clear IH. specialize (Hd k ltac:(lia)). revert d Hl Hd Hk. generalize (deg k). intros v.
      intros d Hl Hd Hk. clear Hl. revert k Hd Hk. induction d as [|y d IHd]; intros [|k] Hd Hk; simpl in *; try discriminate.
      - injection Hd as ->. reflexivity.
      - f_equal. apply IHd; auto. lia. }
    rewrite E, list_sum_app, IH by lia. simpl. lia.
  Qed.

  Lemma sum_degrees d : length d = N -> (forall m, m < N -> nth_error d m = Some (deg m)) -> fold_left Nat.add d 0 = P N.
  Proof.
    intros Hl Hd. rewrite sum_list. simpl. rewrite <- (sum_prefix d Hl Hd N (le_n _)). rewrite firstn_all2 by lia. reflexivity.
  Qed.

  (** the total number of half edges *)
  Lemma P_total : P N = 2 * length edges.
  Proof.
    rewrite <- length_half. unfold in_range in Hr. revert Hr.
    assert (Hgen : forall l : list (nat * nat), (forall a b, In (a, b) l -> a < N) ->
       forall k, (fix s m := match m with O => 0 | S k => s k + length (at_node l k) end) k
            = length (filter (fun e => Nat.ltb (fst e) k) l)).
    { intros l _. induction k as [|k IH].
      - simpl. induction l as [|e l IHl]; simpl; auto.
      - simpl. rewrite IH. clear IH. unfold at_node. rewrite map_length.
        induction l as [|[a b] l IHl]; [reflexivity|]. cbn [filter fst].
        destruct (Nat.ltb_spec a k), (Nat.eqb_spec a k), (Nat.ltb_spec a (S k)); simpl; try lia. }
    intros Hr'. assert (Hh : forall a b, In (a, b) (half edges) -> a < N) by (intros a b H; apply (half_range edges N Hr') in H; tauto).
    specialize (Hgen (half edges) Hh N).
    assert (E : P N = (fix s m := match m with O => 0 | S k => s k + length (at_node (half edges) k) end) N).
    { clear. induction N as [|k IH]; [reflexivity|]. simpl. rewrite IH, nbrs_half. reflexivity. }
    rewrite E, Hgen. clear Hgen E. induction (half edges) as [|[a b] l IH]; [reflexivity|].
    cbn [filter fst]. destruct (Nat.ltb_spec a N) as [Hlt|Hge].
    - simpl. f_equal. apply IH. intros x y H. apply (Hh x y). right. assumption.
    - specialize (Hh a b (or_introl eq_refl)). lia.
  Qed.

  Lemma edges_to_csr_ok junk_p junk_i N0 :
    num_nodes edges N0 = Ok N -> N < length junk_p -> 2 * length edges <= length junk_i ->
    exists indptr indices,
      edges_to_csr junk_p junk_i edges N0 = Ok (indptr, indices)
      /\ length indptr = S N /\ length indices = 2 * length edges
      /\ (forall m, m <= N -> nth_error indptr m = Some (P m))
      /\ (forall m, m < N -> slice indices (P m) (P (S m)) = nbrs edges m).
  Proof.
    intros HN Hj1 Hj2. unfold edges_to_csr. rewrite HN. cbn [bind].
    destruct degrees_ok as (d & Ed & Hd1 & Hd2). rewrite Ed. cbn [bind].
    rewrite (sum_degrees d Hd1 Hd2). destruct (cumul_ok junk_p d Hd1 Hd2 Hj1) as (p & Ep & Hp1 & Hp2).
    rewrite Ep. cbn [bind]. pose proof P_total as HT.
    destruct (fill_ok junk_i p Hp1 Hp2) as ([ind ctr] & Ef & H1 & H2 & H3 & H4); [lia|].
    rewrite Ef. cbn [bind fst]. exists p, ind. split; [reflexivity|]. split; [assumption|]. split; [lia|]. split; [assumption|].
    intros m Hm. pose proof (P_step m N Hm) as Hle. apply nth_error_ext. intros i.
    assert (HL : length (slice ind (P m) (P (S m))) = deg m) by (rewrite length_slice; simpl; lia).
    destruct (Nat.lt_ge_cases i (deg m)) as [Hi|Hi].
    - rewrite nth_error_slice by (simpl; lia).
      destruct (nth_error (nbrs edges m) i) as [x|] eqn:Ex; [|apply nth_error_None in Ex; lia].
      apply H4; auto. rewrite <- nbrs_half. assumption.
    - rewrite (proj2 (nth_error_None _ _)) by lia. symmetry. apply nth_error_None. assumption.
  Qed.
End Csr.

(** what this means for adjacency *)
Lemma in_nbrs edges m n : In n (nbrs edges m) <-> In (m, n) edges \/ In (n, m) edges.
Proof.
  rewrite nbrs_half, <- in_half. unfold at_node. rewrite in_map_iff. split.
  - intros ([a b] & <- & H). apply filter_In in H as [H E]. cbn [fst snd] in *. apply Nat.eqb_eq in E. subst. assumption.
  - intros H. exists (m, n). split; [reflexivity|]. apply filter_In. split; [assumption|]. apply Nat.eqb_refl.
Qed.

Lemma edges_to_csr_adj edges N N0 junk_p junk_i :
  in_range edges N -> num_nodes edges N0 = Ok N -> N < length junk_p -> 2 * length edges <= length junk_i ->
  exists indptr indices,
    edges_to_csr junk_p junk_i edges N0 = Ok (indptr, indices)
    /\ csr N indptr indices
    /\ (forall m n, m < N -> (adj indptr indices m n <-> In (m, n) edges \/ In (n, m) edges)).
Proof.
  intros Hr HN H1 H2. destruct (edges_to_csr_ok edges N Hr junk_p junk_i N0 HN H1 H2) as (p & ind & E & L1 & L2 & Hp & Hs).
  exists p, ind. split; [assumption|].
  assert (Hadj : forall m n, m < N -> (adj p ind m n <-> In (m, n) edges \/ In (n, m) edges)).
  { intros m n Hm. rewrite <- in_nbrs, <- (Hs m Hm). split.
    - intros (a & b & j & Ha & Hb & Hj & Hx). rewrite Hp in Ha by lia. rewrite Hp in Hb by lia.
      injection Ha as <-. injection Hb as <-. apply nth_error_In with (j - deg_sum edges m).
      rewrite nth_error_slice by (simpl in *; lia). rewrite <- Hx. f_equal. simpl in *. lia.
    - intros Hin. apply In_nth_error in Hin as [i Hi]. pose proof (nth_error_lt _ _ _ Hi) as Hlt.
      rewrite Hs in Hlt by assumption.
      rewrite nth_error_slice in Hi by (simpl; lia).
      exists (deg_sum edges m), (deg_sum edges (S m)), (deg_sum edges m + i). split; [apply Hp; lia|]. split; [apply Hp; lia|].
      split; [simpl; lia|assumption]. }
  split; [|assumption]. split; [assumption|]. intros m n Hm Ha. apply Hadj in Ha; auto.
  destruct Ha as [Ha|Ha]; apply Hr in Ha; tauto.
Qed.

Lemma max_node_spec edges m : max_node edges = Ok m ->
  in_range edges (S m) /\ exists a b, In (a, b) edges /\ (a = m \/ b = m).
Proof.
  destruct edges as [|[a b] r]; [discriminate|]. simpl. intros E. injection E as <-.
  assert (Hg : forall (l : list (nat * nat)) acc, let M := fold_left (fun m e => Nat.max m (Nat.max (fst e) (snd e))) l acc in
     acc <= M /\ (forall x y, In (x, y) l -> x <= M /\ y <= M) /\ (M = acc \/ exists x y, In (x, y) l /\ (x = M \/ y = M))).
  { induction l as [|[x y] l IH]; intros acc; simpl.
    - split; [lia|]. split; [intros ? ? []|auto].
    - destruct (IH (Nat.max acc (Nat.max x y))) as (H1 & H2 & H3). simpl in *. split; [lia|]. split.
      + intros u v [E|Hin]; [injection E as <- <-; lia|apply H2; assumption].
      + destruct H3 as [H3|(u & v & H3 & H4)]; [|right; exists u, v; auto].
        rewrite H3. destruct (Nat.max_spec acc (Nat.max x y)) as [[_ ->]|[_ ->]]; [|auto].
        right. destruct (Nat.max_spec x y) as [[_ ->]|[_ ->]]; [exists x, y; auto|exists x, y; auto]. }
  destruct (Hg r (Nat.max a b)) as (H1 & H2 & H3). simpl in *. set (M := fold_left _ _ _) in *. split.
  - intros x y [E|Hin]; [injection E as <- <-; lia|apply H2 in Hin; lia].
  - destruct H3 as [H3|(u & v & H3 & H4)]; [|exists u, v; auto].
    exists a, b. split; [auto|]. lia.
Qed.
