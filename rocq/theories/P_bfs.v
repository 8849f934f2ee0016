(** * Breadth-first search: proofs *)
From Coq Require Import List ZArith Bool Lia.
From Verif Require Import Res Arr ArrLemmas S_graph M_bfs.
Import ListNotations.

Lemma for_each_inv {X S} (P : list X -> S -> Prop) (l : list X) (body : X -> S -> res S) s :
  P [] s ->
  (forall pre x post s, l = pre ++ x :: post -> P pre s -> exists s', body x s = Ok s' /\ P (pre ++ [x]) s') ->
  exists s', for_each l body s = Ok s' /\ P l s'.
Proof.
  intros H0 Hstep.
  assert (H : forall post pre s, l = pre ++ post -> P pre s ->
    exists s', for_each post body s = Ok s' /\ P l s').
  { induction post as [|x post IH]; intros pre s1 E Hp; simpl.
    - rewrite app_nil_r in E. subst. eauto.
    - destruct (Hstep pre x post s1 E Hp) as (s2 & E2 & H2). rewrite E2. simpl.
      apply (IH (pre ++ [x])); auto. rewrite <- app_assoc. assumption. }
  apply (H l []); auto.
Qed.

(** partial correctness version: the loop may raise *)
Lemma for_each_inv_ok {X S} (P : list X -> S -> Prop) (l : list X) (body : X -> S -> res S) s s' :
  for_each l body s = Ok s' -> P [] s ->
  (forall pre x post s s', l = pre ++ x :: post -> P pre s -> body x s = Ok s' -> P (pre ++ [x]) s') ->
  P l s'.
Proof.
  intros HE H0 Hstep.
  assert (H : forall post pre s, l = pre ++ post -> P pre s ->
    for_each post body s = Ok s' -> P l s').
  { induction post as [|x post IH]; intros pre s1 E Hp HE'; simpl in HE'.
    - rewrite app_nil_r in E. subst. congruence.
    - bind_inv HE'. apply (IH (pre ++ [x]) v); auto.
      + rewrite <- app_assoc. assumption.
      + eapply Hstep; eauto. }
  apply (H l [] s); auto.
Qed.

Lemma firstn_upd_snoc {A} (l : list A) i x : i < length l -> firstn (S i) (upd l i x) = firstn i l ++ [x].
Proof.
  revert i. induction l; intros [|i] H; simpl in *; try lia; auto.
  f_equal. apply IHl. lia.
Qed.

Lemma firstn_upd_ge {A} (l : list A) i j x : j <= i -> firstn j (upd l i x) = firstn j l.
Proof.
  revert i j. induction l; intros [|i] [|j] H; simpl; try lia; auto.
  f_equal. apply IHl. lia.
Qed.

Lemma nodup_bound (l : list nat) N : NoDup l -> (forall x, In x l -> x < N) -> length l <= N.
Proof.
  intros H1 H2. rewrite <- (seq_length N 0). apply NoDup_incl_length; auto.
  intros x Hx. apply in_seq. specialize (H2 x Hx). lia.
Qed.

Lemma nodup_bound_strict (l : list nat) N n :
  NoDup l -> (forall x, In x l -> x < N) -> n < N -> ~ In n l -> length l < N.
Proof.
  intros H1 H2 H3 H4. apply (nodup_bound (n :: l)).
  - constructor; auto.
  - intros x [<-|Hx]; auto.
Qed.

Lemma NoDup_snoc {A} (l : list A) x : NoDup l -> ~ In x l -> NoDup (l ++ [x]).
Proof.
  intros H1 H2. apply NoDup_rev in H1. rewrite <- (rev_involutive (l ++ [x])). apply NoDup_rev.
  rewrite rev_app_distr. simpl. constructor; auto. rewrite <- in_rev. assumption.
Qed.

Section Neigh.
  Variables (N : nat) (indptr indices : list nat).
  Hypothesis Hcsr : csr N indptr indices.

  Lemma neighbours_spec m : m < N ->
    exists ns, neighbours indptr indices m = Ok ns /\ forall n, In n ns <-> adj indptr indices m n.
  Proof.
    intros Hm. destruct Hcsr as [Hl Ha]. unfold neighbours.
    destruct (get_lt indptr m) as (a & Ea & Na); [lia|].
    destruct (get_lt indptr (m + 1)) as (b & Eb & Nb); [lia|].
    rewrite Ea, Eb. simpl. eexists. split; [reflexivity|].
    replace (m + 1) with (S m) in Nb by lia.
    intros n. unfold slice. split.
    - intros H. apply In_nth_error in H as [i Hi].
      assert (Hlt : i < b - a).
      { apply nth_error_lt in Hi. rewrite firstn_length in Hi. lia. }
      rewrite nth_error_firstn, nth_error_skipn in Hi by assumption.
      exists a, b, (a + i). repeat split; auto; lia.
    - intros (a' & b' & j & E1 & E2 & Hj & E3). 
      rewrite Na in E1; injection E1 as <-. rewrite Nb in E2; injection E2 as <-.
      apply nth_error_In with (n := j - a).
      rewrite nth_error_firstn, nth_error_skipn by lia. rewrite <- E3. f_equal. lia.
  Qed.
  Lemma neighbours_listed m ns : neighbours indptr indices m = Ok ns -> ns = listed indptr indices m.
  Proof.
    unfold neighbours, get. destruct (nth_error indptr m) as [a|] eqn:Ea; [|discriminate]. cbn [bind].
    destruct (nth_error indptr (m + 1)) as [b|] eqn:Eb; [|discriminate]. cbn [bind]. intros H. injection H as <-.
    replace (m + 1) with (S m) in Eb by lia.
    unfold listed, slice. rewrite (nth_error_nth _ _ 0 Ea), (nth_error_nth _ _ 0 Eb). reflexivity.
  Qed.
End Neigh.

Section Bfs.
  Variables (N : nat) (indptr indices : list nat) (root : nat) (good0 : list bool).
  Hypothesis Hcsr : csr N indptr indices.
  Hypothesis Hgood : length good0 = N.
  Hypothesis Hroot : mask good0 root.

  Let E := adj indptr indices.
  Let ok := mask good0.
  Notation wlk := (walk E ok root).

  Lemma root_lt : root < N.
  Proof. unfold mask in Hroot. apply nth_error_lt in Hroot. lia. Qed.

  (** L pairs each queued node with its depth *)
  Record inv (L : list (nat * nat)) (qu : list nat) (qt : nat) (good : list bool) : Prop := mkinv {
    i_q : firstn qt qu = map fst L;
    i_qt : qt = length L;
    i_lq : length qu = N;
    i_lg : length good = N;
    i_nd : NoDup (map fst L);
    i_lt : forall n, In n (map fst L) -> n < N;
    i_good : forall n, mask good n <-> ok n /\ ~ In n (map fst L);
    i_walk : forall n d, In (n, d) L -> wlk d n;
    i_root : nth_error L 0 = Some (root, 0);
    i_sort : forall i j a b, i <= j -> nth_error (map snd L) i = Some a -> nth_error (map snd L) j = Some b -> a <= b;
    i_par : forall i n d, nth_error L (S i) = Some (n, d) ->
            exists j m, j <= i /\ nth_error (map fst L) j = Some m /\ E m n
  }.

  Definition inner (m dm : nat) (L0 : list (nat * nat)) (done : list nat) (st : list nat * nat * list bool) : Prop :=
    let '(qu, qt, good) := st in
    exists L1, let L := L0 ++ L1 in inv L qu qt good
      /\ (forall n d, In (n, d) L -> d <= S dm)
      /\ (forall n, In n done -> ok n -> exists d, In (n, d) L /\ d <= S dm).

  Lemma visit_inner m dm hpos L0 done n st :
    nth_error L0 hpos = Some (m, dm) ->
    E m n -> inner m dm L0 done st ->
    exists st', bfs_visit n st = Ok st' /\ inner m dm L0 (done ++ [n]) st'.
  Proof.
    intros Hm Hadj. destruct st as [[qu qt] good].
    intros (L1 & HI & Hle & Hdone).
    assert (Hml : m < N).
    { apply (i_lt _ _ _ _ HI). rewrite map_app. apply in_or_app; left.
      apply in_map_iff. exists (m, dm). split; auto. eapply nth_error_In; eauto. }
    assert (Hn : n < N) by (destruct Hcsr as [_ Ha]; eapply Ha; eauto).
    unfold bfs_visit.
    destruct (get_lt good n) as (g & Eg & Ng); [rewrite (i_lg _ _ _ _ HI); lia|].
    rewrite Eg. cbn [bind]. destruct g.
    - assert (Hg : ok n /\ ~ In n (map fst (L0 ++ L1))) by (apply (i_good _ _ _ _ HI); exact Ng).
      destruct Hg as [Hok Hnin].
      assert (Hqt : qt < N).
      { rewrite (i_qt _ _ _ _ HI). rewrite <- (map_length fst).
        eapply nodup_bound_strict; eauto using i_nd, i_lt. }
      rewrite set_ok by (rewrite (i_lq _ _ _ _ HI); lia). cbn [bind].
      rewrite set_ok by (rewrite (i_lg _ _ _ _ HI); lia). cbn [bind].
      eexists. split; [reflexivity|].
      exists (L1 ++ [(n, S dm)]). cbn zeta. rewrite app_assoc.
      set (L := L0 ++ L1) in *.
      split; [|split].
      + constructor.
        * rewrite firstn_upd_snoc by (rewrite (i_lq _ _ _ _ HI); lia).
          rewrite map_app. simpl. f_equal. apply (i_q _ _ _ _ HI).
        * rewrite app_length. simpl. rewrite (i_qt _ _ _ _ HI). lia.
        * rewrite length_upd. apply (i_lq _ _ _ _ HI).
        * rewrite length_upd. apply (i_lg _ _ _ _ HI).
        * rewrite map_app. apply NoDup_snoc; [apply (i_nd _ _ _ _ HI)|assumption].
        * intros x Hx. rewrite map_app in Hx. apply in_app_or in Hx as [Hx|[<-|[]]]; auto.
          apply (i_lt _ _ _ _ HI); auto.
        * intros x. rewrite map_app. unfold mask. destruct (Nat.eq_dec n x) as [<-|Hne].
          { rewrite nth_error_upd_eq by (rewrite (i_lg _ _ _ _ HI); lia). split; [discriminate|].
            intros [_ H]. exfalso. apply H. apply in_or_app. right. left. reflexivity. }
          { rewrite nth_error_upd_neq by assumption. rewrite (i_good _ _ _ _ HI x).
            split; intros [H1 H2]; split; auto; intros H3; apply H2.
            - apply in_app_or in H3 as [H3|[H3|[]]]; auto. simpl in H3. congruence.
            - apply in_or_app; left; assumption. }
        * intros x d Hx. apply in_app_or in Hx as [Hx|[Hx|[]]].
          { apply (i_walk _ _ _ _ HI); assumption. }
          { injection Hx as <- <-. apply walk_S with m; auto.
            apply (i_walk _ _ _ _ HI). apply in_or_app; left. eapply nth_error_In; eauto. }
        * rewrite nth_error_app1; [apply (i_root _ _ _ _ HI)|].
          pose proof (i_root _ _ _ _ HI) as Hr. apply nth_error_lt in Hr. assumption.
        * intros i j a b Hij Ha Hb. rewrite map_app in Ha, Hb.
          destruct (Nat.lt_ge_cases j (length (map snd L))) as [Hj|Hj].
          { rewrite nth_error_app1 in Ha, Hb by lia. exact (i_sort _ _ _ _ HI i j a b Hij Ha Hb). }
          { assert (Hb' : b = S dm).
            { rewrite nth_error_app2 in Hb by lia.
              destruct (j - length (map snd L)) as [|[|]]; simpl in Hb; congruence. }
            subst b. destruct (Nat.lt_ge_cases i (length (map snd L))) as [Hi|Hi].
            - rewrite nth_error_app1 in Ha by lia. apply nth_error_In in Ha.
              apply in_map_iff in Ha as ([x d] & <- & Hx). simpl. eapply Hle; eauto.
            - rewrite nth_error_app2 in Ha by lia.
              destruct (i - length (map snd L)) as [|[|]]; simpl in Ha; inversion Ha; lia. }
        * intros i x d Hx.
          destruct (Nat.lt_ge_cases (S i) (length L)) as [Hi|Hi].
          { rewrite nth_error_app1 in Hx by lia.
            destruct (i_par _ _ _ _ HI i x d Hx) as (j & m' & H1 & H2 & H3).
            exists j, m'. repeat split; auto. rewrite map_app, nth_error_app1; auto.
            apply nth_error_lt in H2; auto. }
          { rewrite nth_error_app2 in Hx by lia.
            assert (Hxx : x = n /\ S i = length L).
            { destruct (S i - length L) as [|[|]] eqn:Ei; simpl in Hx; inversion Hx; split; auto; lia. }
            destruct Hxx as [-> Hi']. exists hpos, m.
            assert (Hh : hpos < length L0) by (eapply nth_error_lt; eauto).
            assert (Hl : length L = length L0 + length L1) by (unfold L; rewrite app_length; reflexivity).
            repeat split; auto; [lia|]. unfold L. rewrite <- app_assoc, map_app.
            rewrite nth_error_app1 by (rewrite map_length; lia).
            rewrite nth_error_map, Hm. reflexivity. }
      + intros x d Hx. apply in_app_or in Hx as [Hx|[Hx|[]]]; [eapply Hle; eauto|].
        injection Hx as <- <-. lia.
      + intros x Hx Hox. apply in_app_or in Hx as [Hx|[<-|[]]].
        * destruct (Hdone x Hx Hox) as (d & Hd1 & Hd2). exists d. split; auto. apply in_or_app; auto.
        * exists (S dm). split; [|lia]. apply in_or_app. right. left. reflexivity.
    - eexists. split; [reflexivity|]. exists L1. cbn zeta. split; [assumption|]. split; [assumption|].
      intros x Hx Hox. apply in_app_or in Hx as [Hx|[<-|[]]]; [auto|].
      destruct (in_dec Nat.eq_dec n (map fst (L0 ++ L1))) as [Hin|Hnin].
      + apply in_map_iff in Hin as ([n' d] & <- & Hd). exists d. split; auto. eapply Hle; eauto.
      + exfalso. assert (mask good n) by (apply (i_good _ _ _ _ HI); auto).
        unfold mask in H. congruence.
  Qed.

  Definition outer (h : nat) (L : list (nat * nat)) : Prop :=
    h <= length L
    /\ (forall i m dm n, i < h -> nth_error L i = Some (m, dm) -> E m n -> ok n ->
          exists d, In (n, d) L /\ d <= S dm)
    /\ (forall m dm, nth_error L h = Some (m, dm) -> forall n d, In (n, d) L -> d <= S dm).

  Lemma body_step L h qu qt good :
    inv L qu qt good -> outer h L -> h < qt ->
    exists L' qu' qt' good', bfs_body indptr indices (qu, qt, h, good) = Ok (inl (qu', qt', S h, good'))
      /\ inv L' qu' qt' good' /\ outer (S h) L'.
  Proof.
    intros HI (Hh & Hcl & Hdep) Hlt. unfold bfs_body.
    apply Nat.ltb_lt in Hlt as Hltb. rewrite Hltb.
    destruct (nth_error L h) as [[m dm]|] eqn:Em.
    2:{ apply nth_error_None in Em. rewrite (i_qt _ _ _ _ HI) in Hlt. lia. }
    assert (Hqm : get qu h = Ok m).
    { apply get_ok. rewrite <- (nth_error_firstn qu qt h) by assumption.
      rewrite (i_q _ _ _ _ HI), nth_error_map, Em. reflexivity. }
    rewrite Hqm. cbn [bind].
    assert (Hm : m < N).
    { apply (i_lt _ _ _ _ HI). apply in_map_iff. exists (m, dm). split; auto. eapply nth_error_In; eauto. }
    destruct (neighbours_spec N indptr indices Hcsr m Hm) as (ns & En & Hns). rewrite En. cbn [bind].
    destruct (for_each_inv (inner m dm L) ns bfs_visit (qu, qt, good)) as ([[qu' qt'] good'] & Ef & Hf).
    - exists []. rewrite app_nil_r. cbn zeta. split; [assumption|]. split; [eauto|]. intros n [].
    - intros pre x post s El Hp. eapply visit_inner; eauto. apply Hns. rewrite El. apply in_or_app. right. left. reflexivity.
    - rewrite Ef. cbn [bind]. destruct Hf as (L1 & HI' & Hle & Hdone). cbn zeta in *.
      exists (L ++ L1), qu', qt', good'. split; [reflexivity|]. split; [assumption|].
      assert (Hhl : h < length L) by (eapply nth_error_lt; eauto).
      split; [rewrite app_length; lia|]. split.
      + intros i m' dm' n Hi Hnth Hadj Hok.
        rewrite nth_error_app1 in Hnth by lia.
        destruct (Nat.eq_dec i h) as [->|Hne].
        * rewrite Em in Hnth. injection Hnth as <- <-. apply Hdone; auto. apply Hns. assumption.
        * destruct (Hcl i m' dm' n) as (d & H1 & H2); auto; [lia|]. exists d. split; auto. apply in_or_app; auto.
      + intros m' dm' Hnth n d Hin. apply Hle in Hin.
        assert (dm <= dm').
        { apply (i_sort _ _ _ _ HI' h (S h)); auto.
          - rewrite nth_error_map, nth_error_app1, Em by lia. reflexivity.
          - rewrite nth_error_map, Hnth. reflexivity. }
        lia.
  Qed.

  Lemma bfs_loop L h qu qt good : inv L qu qt good -> outer h L ->
    forall fuel, N - h < fuel -> exists L' qu' qt' good',
      (forall fuel', N - h < fuel' -> loop fuel' (bfs_body indptr indices) (qu, qt, h, good) = Ok (qu', qt', good'))
      /\ inv L' qu' qt' good' /\ outer (length L') L'.
  Proof.
    intros HI HO fuel. revert L h qu qt good HI HO.
    induction fuel as [|fuel IH]; intros L h qu qt good HI HO Hf; [lia|].
    destruct (Nat.lt_ge_cases h qt) as [Hlt|Hge].
    - destruct (body_step L h qu qt good HI HO Hlt) as (L1 & qu1 & qt1 & good1 & E1 & HI1 & HO1).
      assert (Hqt : qt <= N).
      { rewrite (i_qt _ _ _ _ HI), <- (map_length fst). eapply nodup_bound; eauto using i_nd, i_lt. }
      destruct (IH L1 (S h) qu1 qt1 good1 HI1 HO1) as (L2 & qu2 & qt2 & good2 & E2 & H2); [lia|].
      exists L2, qu2, qt2, good2. split; [|assumption].
      intros [|fuel'] Hf'; [lia|]. cbn [loop]. rewrite E1. cbn [bind]. apply E2. lia.
    - exists L, qu, qt, good. split; [|split; [assumption|]].
      + intros [|fuel'] Hf'; [lia|]. simpl. apply Nat.ltb_ge in Hge as ->. reflexivity.
      + rewrite (i_qt _ _ _ _ HI) in Hge. destruct HO as (H1 & H2). replace (length L) with h by lia.
        split; [lia|assumption].
  Qed.

  Lemma walk_dist L qu qt good n k : inv L qu qt good -> outer (length L) L ->
    wlk k n -> exists d, In (n, d) L /\ d <= k.
  Proof.
    intros HI (_ & Hcl & _) HW. induction HW as [Hr|k m n HW IH Hadj Hok].
    - exists 0. split; auto. eapply nth_error_In. apply (i_root _ _ _ _ HI).
    - destruct IH as (d & Hin & Hd). apply In_nth_error in Hin as Hi. destruct Hi as [i Hi].
      destruct (Hcl i m d n) as (d' & H1 & H2); auto.
      + eapply nth_error_lt; eauto.
      + exists d'. split; auto. lia.
  Qed.

  Lemma bfs_good_correct junk : N <= length junk ->
    exists L good',
      (forall fuel, N < fuel -> bfs_conncomp1 fuel junk indptr indices root good0 = Ok (map fst L, good'))
      /\ NoDup (map fst L) /\ nth_error L 0 = Some (root, 0)
      /\ (forall n d, In (n, d) L <-> dist E ok root n d)
      /\ (forall i j a b, i <= j -> nth_error (map snd L) i = Some a -> nth_error (map snd L) j = Some b -> a <= b)
      /\ (forall i n d, nth_error L (S i) = Some (n, d) ->
            exists j m, j <= i /\ nth_error (map fst L) j = Some m /\ E m n)
      /\ length good' = N
      /\ (forall n, mask good' n <-> ok n /\ ~ In n (map fst L)).
  Proof.
    intros Hj. pose proof root_lt as Hr.
    assert (Hlq : length (firstn N junk) = N) by (rewrite firstn_length; lia).
    destruct (bfs_loop [(root, 0)] 0 (upd (firstn N junk) 0 root) 1 (upd good0 root false)) 
      with (fuel := S N) as (L & qu & qt & good' & EL & HI & HO); try lia.
    - constructor; simpl.
      + destruct (firstn N junk); simpl in *; [lia|reflexivity].
      + reflexivity.
      + rewrite length_upd. assumption.
      + rewrite length_upd. assumption.
      + repeat constructor. intros [].
      + intros n [<-|[]]. assumption.
      + intros n. unfold mask. destruct (Nat.eq_dec root n) as [<-|Hne].
        * rewrite nth_error_upd_eq by lia. split; [discriminate|]. intros [_ H]. tauto.
        * rewrite nth_error_upd_neq by assumption. unfold ok, mask. tauto.
      + intros n d [H|[]]. injection H as <- <-. constructor. exact Hroot.
      + reflexivity.
      + intros [|i] [|j] a b Hij Ha Hb; simpl in *; try lia.
        * congruence.
        * destruct j; discriminate.
        * destruct i; discriminate.
      + intros i n d H. destruct i; discriminate.
    - split; [simpl; lia|]. split; [intros; lia|]. simpl.
      intros m dm H n d [Hin|[]]. injection Hin as <- <-. injection H as <- <-. lia.
    - exists L, good'. split; [|split; [|split; [|split; [|split; [|split; [|split]]]]]].
      + intros fuel Hf. unfold bfs_conncomp1. rewrite Hgood.
        rewrite (get_ok good0 root true Hroot). cbn [bind].
        rewrite set_ok by lia. cbn [bind]. rewrite set_ok by lia. cbn [bind].
        rewrite EL by lia. cbn [bind]. rewrite (i_q _ _ _ _ HI). reflexivity.
      + apply (i_nd _ _ _ _ HI).
      + apply (i_root _ _ _ _ HI).
      + intros n d. split.
        * intros Hin. split; [apply (i_walk _ _ _ _ HI); assumption|].
          intros j HW. destruct (walk_dist _ _ _ _ _ _ HI HO HW) as (d' & Hin' & Hd').
          assert (d = d'); [|lia].
          apply In_nth_error in Hin as [i Hi]. apply In_nth_error in Hin' as [i' Hi'].
          assert (Hii : i = i').
          { apply (proj1 (NoDup_nth_error (map fst L)) (i_nd _ _ _ _ HI)).
            - rewrite map_length. eapply nth_error_lt; eauto.
            - rewrite !nth_error_map, Hi, Hi'. reflexivity. }
          subst i'. congruence.
        * intros [HW Hmin]. destruct (walk_dist _ _ _ _ _ _ HI HO HW) as (d' & Hin' & Hd').
          assert (d <= d') by (apply Hmin; apply (i_walk _ _ _ _ HI); assumption).
          replace d with d' by lia. assumption.
      + apply (i_sort _ _ _ _ HI).
      + apply (i_par _ _ _ _ HI).
      + apply (i_lg _ _ _ _ HI).
      + apply (i_good _ _ _ _ HI).
  Qed.
End Bfs.


Lemma bfs_conncomp1_correct N indptr indices root good junk :
  csr N indptr indices -> length good = N -> root < N -> N <= length junk ->
  exists qu good',
    (forall fuel, N < fuel -> bfs_conncomp1 fuel junk indptr indices root good = Ok (qu, good'))
    /\ NoDup qu
    /\ (forall n, In n qu <-> reach (adj indptr indices) (mask good) root n)
    /\ (mask good root -> nth_error qu 0 = Some root)
    /\ (~ mask good root -> qu = [])
    /\ length good' = N
    /\ (forall n, mask good' n <-> mask good n /\ ~ reach (adj indptr indices) (mask good) root n)
    /\ (forall i j a b da db, i <= j -> nth_error qu i = Some a -> nth_error qu j = Some b ->
          dist (adj indptr indices) (mask good) root a da ->
          dist (adj indptr indices) (mask good) root b db -> da <= db)
    /\ (forall n, In n qu -> exists d, dist (adj indptr indices) (mask good) root n d)
    /\ (forall i n, nth_error qu (S i) = Some n ->
          exists j m, j <= i /\ nth_error qu j = Some m /\ adj indptr indices m n).
Proof.
  intros HC Hg Hr Hj. destruct (nth_error good root) as [[|]|] eqn:Er.
  - destruct (bfs_good_correct N indptr indices root good HC Hg Er junk Hj)
      as (L & good' & H1 & H2 & H3 & H4 & H5 & H6 & H7 & H8).
    assert (HR : forall n, In n (map fst L) <-> reach (adj indptr indices) (mask good) root n).
    { intros n. split.
      - intros H. apply in_map_iff in H as ([n' d] & <- & H). exists d. apply H4 in H. apply H.
      - intros [k HW]. 
        (* minimal k by strong induction *)
        assert (Hmin : exists d, dist (adj indptr indices) (mask good) root n d \/ In n (map fst L)).
        { revert HW. induction k as [k IH] using lt_wf_ind. intros HW.
          destruct (in_dec Nat.eq_dec n (map fst L)) as [Hin|Hnin]; [exists 0; auto|].
          exists k. left. split; auto. intros j HWj. destruct (Nat.le_gt_cases k j); auto.
          exfalso. destruct (IH j) as (d & [Hd|Hin]); auto.
          apply H4 in Hd. apply Hnin. apply in_map_iff. exists (n, d). auto. }
        destruct Hmin as (d & [Hd|Hin]); auto. apply in_map_iff. exists (n, d). split; auto. apply H4. assumption. }
    exists (map fst L), good'. repeat split; auto.
    + apply HR.
    + apply HR.
    + intros _. rewrite nth_error_map, H3. reflexivity.
    + intros H. exfalso. apply H. exact Er.
    + apply H8. assumption.
    + apply H8 in H. rewrite <- HR. tauto.
    + intros [Ha Hb]. apply H8. rewrite HR. auto.
    + intros i j a b da db Hij Ha Hb Da Db.
      apply H4 in Da, Db.
      assert (Hpos : forall k x dx, nth_error (map fst L) k = Some x -> In (x, dx) L -> nth_error (map snd L) k = Some dx).
      { intros k x dx Hk Hin. apply In_nth_error in Hin as [k' Hk'].
        assert (k = k').
        { apply (proj1 (NoDup_nth_error (map fst L)) H2).
          - eapply nth_error_lt; eauto.
          - rewrite Hk, nth_error_map, Hk'. reflexivity. }
        subst. rewrite nth_error_map, Hk'. reflexivity. }
      eapply H5; eauto.
    + intros n Hn. apply in_map_iff in Hn as ([n' d] & <- & Hin). exists d. apply H4. assumption.
    + intros i n Hn. rewrite nth_error_map in Hn. destruct (nth_error L (S i)) as [[n' d]|] eqn:En; [|discriminate].
      simpl in Hn. injection Hn as <-. eapply H6; eauto.
  - assert (Hno : forall n, ~ reach (adj indptr indices) (mask good) root n).
    { intros n [k HW]. induction HW; auto. unfold mask in H. congruence. }
    exists [], good. repeat split; auto; try (intros []; fail).
    + intros fuel _. unfold bfs_conncomp1. rewrite (get_ok _ _ _ Er). reflexivity.
    + constructor.
    + intros H. exfalso. eapply Hno; eauto.
    + intros H. unfold mask in H. congruence.
    + intros [H _]. assumption.
    + intros [|i] [|j] a b da db _ Ha; discriminate.
    + intros n [].
    + intros i n H. discriminate.
  - apply nth_error_None in Er. lia.
Qed.

Lemma bfs_component N indptr indices root good junk :
  csr N indptr indices -> length good = N -> root < N -> N <= length junk ->
  exists qu good',
    (forall fuel, N < fuel -> bfs_conncomp1 fuel junk indptr indices root good = Ok (qu, good'))
    /\ NoDup qu
    /\ (forall n, In n qu <-> reach (adj indptr indices) (mask good) root n)
    /\ (mask good root -> nth_error qu 0 = Some root)
    /\ (~ mask good root -> qu = [])
    /\ length good' = N
    /\ (forall n, mask good' n <-> mask good n /\ ~ reach (adj indptr indices) (mask good) root n).
Proof.
  intros H1 H2 H3 H4. destruct (bfs_conncomp1_correct N indptr indices root good junk H1 H2 H3 H4)
    as (qu & good' & G1 & G2 & G3 & G4 & G5 & G6 & G7 & _).
  exists qu, good'. auto 10.
Qed.

Lemma bfs_order N indptr indices root good junk qu good' fuel :
  csr N indptr indices -> length good = N -> root < N -> N <= length junk -> N < fuel ->
  bfs_conncomp1 fuel junk indptr indices root good = Ok (qu, good') ->
  let D := dist (adj indptr indices) (mask good) root in
  (forall i j a b da db, i <= j -> nth_error qu i = Some a -> nth_error qu j = Some b ->
      D a da -> D b db -> da <= db)
  /\ (forall n, In n qu -> exists d, D n d)
  /\ (forall i n, nth_error qu (S i) = Some n ->
        exists j m, j <= i /\ nth_error qu j = Some m /\ adj indptr indices m n).
Proof.
  intros H1 H2 H3 H4 H5 H6. destruct (bfs_conncomp1_correct N indptr indices root good junk H1 H2 H3 H4)
    as (qu0 & good0 & G1 & G2 & G3 & G4 & G5 & G6 & G7 & G8 & G9 & G10).
  rewrite G1 in H6 by assumption. injection H6 as <- <-. auto.
Qed.
