(** * bfs_conncomp1_wet_perim: proofs *)
From Coq Require Import List ZArith Bool Lia.
From Verif Require Import Num Res Arr ArrLemmas S_graph M_ppinterp M_traj M_bfs S_wet P_bfs P_ppinterp P_wet.
Import ListNotations.

Lemma NoDup_app_disj {A} (Q L : list A) : NoDup Q -> NoDup L -> (forall x, In x Q -> ~ In x L) -> NoDup (Q ++ L).
Proof.
  intros H1 H2 H3. induction Q as [|q Q IH]; simpl; auto.
  inversion H1; subst. constructor.
  - intros H. apply in_app_or in H as [H|H]; auto. apply (H3 q); simpl; auto.
  - apply IH; auto. intros x Hx. apply H3. simpl; auto.
Qed.

Lemma nodup_two (Q L : list nat) N : NoDup Q -> NoDup L -> (forall x, In x Q -> x < N) ->
  (forall x, In x L -> x < N) -> (forall x, In x Q -> ~ In x L) -> length Q + length L <= N.
Proof.
  intros H1 H2 H3 H4 H5. rewrite <- app_length. apply nodup_bound.
  - apply NoDup_app_disj; auto.
  - intros x Hx. apply in_app_or in Hx as [Hx|Hx]; auto.
Qed.

Lemma reach_mono E (ok ok' : nat -> Prop) root n :
  (forall x, ok x -> ok' x) -> reach E ok root n -> reach E ok' root n.
Proof.
  intros H [k HW]. exists k. induction HW; econstructor; eauto.
Qed.

Lemma reach_in_reach E ok root n : reach E ok root n -> reach E (reach E ok root) root n.
Proof.
  intros [k HW]. exists k. induction HW as [Hr|k m n HW IH Hmn Hn].
  - constructor. exists 0. constructor. assumption.
  - econstructor; eauto. exists (S k). econstructor; eauto.
Qed.

Section Perim.
  Context {F : Type} {Nm : Num F}.
  Variables (eos : F -> F -> F -> res F) (ppc_fn : list F -> list F -> res (list (list F))) (fuel : nat).
  Variables (casts : list (list F * list F * list F)) (tol_p : F) (p_ml : list F).
  Variables (N : nat) (indptr indices : list nat) (root : nat) (stp0 : list (F * F * F)).
  Hypothesis Hcsr : csr N indptr indices.
  Hypothesis Hcasts : length casts = N.
  Hypothesis Hml : length p_ml = N.
  Hypothesis Hstp : length stp0 = N.
  Hypothesis Hcl : forall S T P, In (S, T, P) casts -> length S <= length P.
  Hypothesis Hnan : isfinite (nan : F) = false.
  Let E := adj indptr indices.
  Variable okb : F * F * F -> Prop.
  Hypothesis Hokb : closed_p eos ppc_fn fuel casts tol_p (listed indptr indices) okb stp0.
  Notation wet0 := (wet_at stp0).
  Notation link_p := (link_p eos ppc_fn fuel casts tol_p).
  Notation below_ml := (below_ml p_ml).
  Notation cast_ppc := (cast_ppc ppc_fn casts).
  Notation wetted := (wetted eos ppc_fn fuel casts tol_p p_ml (listed indptr indices)).
  Notation unlinkable := (unlinkable eos ppc_fn fuel casts tol_p p_ml E).
  Notation blame_p := (blame_p eos ppc_fn fuel casts tol_p (listed indptr indices) okb).

  (** the back part of the work array holds L, in order of insertion from the end *)
  Definition back (qu : list nat) (qT : nat) (L : list nat) : Prop :=
    length qu = N /\ qT + length L = N /\ forall i, i < length L -> nth_error qu (N - 1 - i) = nth_error L i.

  Lemma back_push qu qT L n : back qu qT L -> length L < N ->
    exists q qu', qT = S q /\ push_perim qu qT n = Ok (qu', q) /\ qu' = upd qu q n /\ back qu' q (L ++ [n]).
  Proof.
    intros (H1 & H2 & H3) Hlt. destruct qT as [|q]; [lia|]. exists q, (upd qu q n). split; auto.
    unfold push_perim. rewrite set_ok by lia. split; auto. split; auto.
    split; [rewrite length_upd; assumption|]. rewrite app_length. simpl. split; [lia|].
    intros i Hi. destruct (Nat.eq_dec i (length L)) as [->|Hne].
    - replace (N - 1 - length L) with q by lia. rewrite nth_error_upd_eq by lia.
      rewrite nth_error_app2, Nat.sub_diag by lia. reflexivity.
    - rewrite nth_error_upd_neq by lia. rewrite nth_error_app1 by lia. apply H3. lia.
  Qed.

  (** ** Phase 1 *)
  Record pinv (Q L : list nat) (st : pstate) : Prop := mkpinv {
    p_q : firstn (pqt st) (pqu st) = Q;
    p_qt : pqt st = length Q;
    p_back : back (pqu st) (pqT st) L;
    p_lg : length (pgood st) = N;
    p_la : length (padj st) = N;
    p_ndQ : NoDup Q;
    p_ndL : NoDup L;
    p_Q : forall n, In n Q -> reach E wet0 root n;
    p_L : forall n, In n L -> n < N /\ ~ wet0 n;
    p_Lpar : forall n, In n L -> exists x, In x Q /\ E x n;
    p_good : forall n, mask (pgood st) n <-> wet0 n /\ ~ In n Q;
    p_adj : forall n, mask (padj st) n <-> wet0 n \/ In n L
  }.

  Lemma reach_wet n : reach E wet0 root n -> wet0 n.
  Proof. intros [k HW]. inversion HW; auto. Qed.

  Lemma wet0_lt n : wet0 n -> n < N.
  Proof. intros (s & t & p & H & _). apply nth_error_lt in H. lia. Qed.

  Lemma pinv_room Q L st : pinv Q L st -> length Q + length L <= N.
  Proof.
    intros HI. apply nodup_two; [apply HI|apply HI| | |].
    - intros x Hx. apply wet0_lt, reach_wet, (p_Q _ _ _ HI); assumption.
    - intros x Hx. apply (p_L _ _ _ HI); assumption.
    - intros x Hx H. apply (p_L _ _ _ HI) in H as [_ H]. apply H, reach_wet, (p_Q _ _ _ HI); assumption.
  Qed.

  Definition pdone (Q L : list nat) (n : nat) : Prop := (wet0 n -> In n Q) /\ (~ wet0 n -> In n L).

  Definition pinner (Q0 : list nat) (done : list nat) (st : pstate) : Prop :=
    exists Q1 L, pinv (Q0 ++ Q1) L st /\ forall n, In n done -> pdone (Q0 ++ Q1) L n.

  Lemma perim_visit_ok m Q0 done n st :
    In m Q0 -> E m n -> pinner Q0 done st ->
    exists st', perim_visit n st = Ok st' /\ pinner Q0 (done ++ [n]) st'.
  Proof.
    intros HmQ0 Hadj (Q1 & L & HI & Hdone).
    set (Q := Q0 ++ Q1) in *.
    assert (HmQ : In m Q) by (apply in_or_app; auto).
    assert (Hm : m < N) by (apply wet0_lt, reach_wet, (p_Q _ _ _ HI); assumption).
    assert (Hn : n < N) by (destruct Hcsr as [_ Ha]; eapply Ha; eauto).
    pose proof (pinv_room _ _ _ HI) as Hroom0.
    destruct st as [qu qt good wadj qT].
    pose proof (p_lg _ _ _ HI) as Hlg. pose proof (p_la _ _ _ HI) as Hla.
    pose proof (p_q _ _ _ HI) as Hq. pose proof (p_qt _ _ _ HI) as Hqt.
    pose proof (p_back _ _ _ HI) as Hb. pose proof Hb as (Hlq & HqT & Hnth).
    unfold perim_visit. cbn [pqu pqt pgood padj pqT] in *.
    destruct (get_lt good n) as (g & Eg & Ng); [lia|]. rewrite Eg. cbn [bind]. destruct g.
    - assert (Hg : wet0 n /\ ~ In n Q) by (apply (p_good _ _ _ HI); exact Ng).
      destruct Hg as [Hwet Hnin].
      assert (Hroom : length Q + length L < N).
      { assert (length (Q ++ [n]) + length L <= N); [|rewrite app_length in *; simpl in *; lia].
        apply nodup_two.
        - apply NoDup_snoc; auto. apply HI.
        - apply HI.
        - intros x Hx. apply in_app_or in Hx as [Hx|[<-|[]]]; auto.
          apply wet0_lt, reach_wet, (p_Q _ _ _ HI); assumption.
        - intros x Hx. apply (p_L _ _ _ HI); assumption.
        - intros x Hx H. apply (p_L _ _ _ HI) in H as [_ H]. apply H.
          apply in_app_or in Hx as [Hx|[<-|[]]]; auto. apply reach_wet, (p_Q _ _ _ HI); assumption. }
      rewrite !set_ok by lia. cbn [bind]. eexists. split; [reflexivity|].
      exists (Q1 ++ [n]), L. rewrite app_assoc. fold Q. split.
      + constructor; cbn [pqu pqt pgood padj pqT]; rewrite ?length_upd; auto; try apply HI.
        * rewrite firstn_upd_snoc by lia. f_equal. assumption.
        * rewrite app_length. simpl. lia.
        * split; [rewrite length_upd; assumption|]. split; [assumption|].
          intros i Hi. rewrite nth_error_upd_neq by lia. apply Hnth. assumption.
        * apply NoDup_snoc; auto. apply HI.
        * intros x Hx. apply in_app_or in Hx as [Hx|[<-|[]]]; [apply (p_Q _ _ _ HI); auto|].
          destruct (p_Q _ _ _ HI m HmQ) as [k HW]. exists (S k). apply walk_S with m; auto.
        * intros x Hx. destruct (p_Lpar _ _ _ HI x Hx) as (y & Hy & Hyx). exists y. split; auto. apply in_or_app; auto.
        * intros x. unfold mask. destruct (Nat.eq_dec n x) as [<-|Hne].
          { rewrite nth_error_upd_eq by lia. split; [discriminate|].
            intros [_ H]. exfalso. apply H. apply in_or_app; right; left; reflexivity. }
          { rewrite nth_error_upd_neq by assumption. rewrite (p_good _ _ _ HI x).
            split; intros [H1 H2]; split; auto; intros H3; apply H2.
            - apply in_app_or in H3 as [H3|[H3|[]]]; auto. congruence.
            - apply in_or_app; auto. }
      + intros x Hx. apply in_app_or in Hx as [Hx|[<-|[]]].
        * destruct (Hdone x Hx) as [H1 H2]. split; auto. intros H. apply in_or_app; auto.
        * split; [|contradiction]. intros _. apply in_or_app; right; left; reflexivity.
    - assert (Hnw : wet0 n -> In n Q).
      { intros Hw. destruct (in_dec Nat.eq_dec n Q) as [Hin|Hnin]; auto. exfalso.
        assert (H : mask good n) by (apply (p_good _ _ _ HI); auto). unfold mask in H. congruence. }
      destruct (get_lt wadj n) as (a & Ea & Na); [lia|]. rewrite Ea. cbn [bind]. destruct a.
      + eexists. split; [reflexivity|]. exists Q1, L. split; [exact HI|].
        intros x Hx. apply in_app_or in Hx as [Hx|[<-|[]]]; [apply Hdone; auto|].
        split; auto. intros Hnwet. destruct (proj1 (p_adj _ _ _ HI n) Na) as [H|H]; [contradiction|assumption].
      + assert (Hn2 : ~ wet0 n /\ ~ In n L).
        { split; intros H; assert (H' : mask wadj n) by (apply (p_adj _ _ _ HI); auto); unfold mask in H'; congruence. }
        destruct Hn2 as [Hnwet HnL].
        assert (Hroom : length Q + length L < N).
        { assert (length Q + length (L ++ [n]) <= N); [|rewrite app_length in *; simpl in *; lia].
          apply nodup_two.
          - apply HI.
          - apply NoDup_snoc; auto. apply HI.
          - intros x Hx. apply wet0_lt, reach_wet, (p_Q _ _ _ HI); assumption.
          - intros x Hx. apply in_app_or in Hx as [Hx|[<-|[]]]; auto. apply (p_L _ _ _ HI); assumption.
          - intros x Hx H. apply (p_Q _ _ _ HI), reach_wet in Hx.
            apply in_app_or in H as [H|[<-|[]]]; [|contradiction]. apply (p_L _ _ _ HI) in H as [_ H]. auto. }
        destruct (back_push qu qT L n Hb) as (q & qu' & -> & Ep & -> & Hb'); [lia|].
        rewrite Ep. cbn [bind]. rewrite set_ok by lia. cbn [bind]. eexists. split; [reflexivity|].
        exists Q1, (L ++ [n]). fold Q. split.
        * constructor; cbn [pqu pqt pgood padj pqT]; rewrite ?length_upd; auto; try apply HI.
          { rewrite firstn_upd_ge by lia. assumption. }
          { apply NoDup_snoc; auto. apply HI. }
          { intros x Hx. apply in_app_or in Hx as [Hx|[<-|[]]]; auto. apply (p_L _ _ _ HI); assumption. }
          { intros x Hx. apply in_app_or in Hx as [Hx|[<-|[]]]; [apply (p_Lpar _ _ _ HI); auto|]. exists m. auto. }
          { intros x. unfold mask. destruct (Nat.eq_dec n x) as [<-|Hne].
            - rewrite nth_error_upd_eq by lia. split; [|reflexivity]. intros _. right.
              apply in_or_app; right; left; reflexivity.
            - rewrite nth_error_upd_neq by assumption. rewrite (p_adj _ _ _ HI x).
              split; (intros [H|H]; [left; assumption|right]).
              + apply in_or_app; auto.
              + apply in_app_or in H as [H|[H|[]]]; auto. congruence. }
        * intros x Hx. apply in_app_or in Hx as [Hx|[<-|[]]].
          { destruct (Hdone x Hx) as [H1 H2]. split; auto. intros H. apply in_or_app; auto. }
          { split; [contradiction|]. intros _. apply in_or_app; right; left; reflexivity. }
  Qed.

  Definition pouter (h : nat) (Q L : list nat) : Prop :=
    h <= length Q /\ forall i m n, i < h -> nth_error Q i = Some m -> E m n -> pdone Q L n.

  Lemma pdone_mono Q Q' L L' n : incl Q Q' -> incl L L' -> pdone Q L n -> pdone Q' L' n.
  Proof. intros H1 H2 [H3 H4]. split; auto. Qed.

  Lemma padj_mono n st st' : perim_visit n st = Ok st' -> forall x, mask (padj st) x -> mask (padj st') x.
  Proof.
    destruct st as [qu qt good wadj qT]. unfold perim_visit.
    destruct (get good n) as [[|]|]; cbn [bind]; try discriminate.
    - destruct (set qu qt n); cbn [bind]; try discriminate.
      destruct (set good n false); cbn [bind]; try discriminate.
      intros E1; injection E1 as <-; auto.
    - destruct (get wadj n) as [[|]|]; cbn [bind]; try discriminate.
      + intros E1; injection E1 as <-; auto.
      + destruct (push_perim qu qT n) as [[? ?]|]; cbn [bind]; try discriminate.
        unfold set. destruct (Nat.ltb_spec n (length wadj)); cbn [bind]; try discriminate.
        intros E1; injection E1 as <-. cbn [padj]. intros x Hx. unfold mask in *.
        destruct (Nat.eq_dec n x) as [<-|Hne].
        * apply nth_error_upd_eq. assumption.
        * rewrite nth_error_upd_neq; auto.
  Qed.

  Lemma perim_body_step Q L h st : pinv Q L st -> pouter h Q L -> h < pqt st ->
    exists Q' L' st', perim_body indptr indices (st, h) = Ok (inl (st', S h))
      /\ pinv Q' L' st' /\ pouter (S h) Q' L' /\ (nth_error Q 0 = Some root -> nth_error Q' 0 = Some root).
  Proof.
    intros HI [Hh Hcl0] Hlt. unfold perim_body. destruct (Nat.ltb_spec h (pqt st)); [|lia].
    rewrite (p_qt _ _ _ HI) in Hlt.
    destruct (nth_error Q h) as [m|] eqn:Em; [|apply nth_error_None in Em; lia].
    assert (Hqm : get (pqu st) h = Ok m).
    { apply get_ok. rewrite <- (nth_error_firstn (pqu st) (pqt st) h) by (rewrite (p_qt _ _ _ HI); assumption).
      rewrite (p_q _ _ _ HI). assumption. }
    rewrite Hqm. cbn [bind].
    assert (HmQ : In m Q) by (eapply nth_error_In; eauto).
    assert (Hm : m < N) by (apply wet0_lt, reach_wet, (p_Q _ _ _ HI); assumption).
    destruct (neighbours_spec N indptr indices Hcsr m Hm) as (ns & En & Hns). rewrite En. cbn [bind].
    destruct (for_each_inv (fun done s => pinner Q done s /\ (forall x, mask (padj st) x -> mask (padj s) x)) ns perim_visit st)
      as (st' & Ef & (Q1 & L1 & HI' & Hdone) & Hmono).
    - split; auto. exists [], L. rewrite app_nil_r. split; [assumption|]. intros n [].
    - intros pre x post s El [Hp Hmo]. destruct (perim_visit_ok m Q pre x s) as (s' & Es & Hs'); auto.
      + apply Hns. rewrite El. apply in_or_app; right; left; reflexivity.
      + exists s'. split; auto. split; auto. intros y Hy. eapply padj_mono; eauto.
    - rewrite Ef. cbn [bind]. exists (Q ++ Q1), L1, st'. split; [reflexivity|]. split; [assumption|].
      assert (HLL : incl L L1).
      { intros x Hx. pose proof (p_L _ _ _ HI x Hx) as [_ Hnw].
        assert (H1 : mask (padj st) x) by (apply (p_adj _ _ _ HI); auto).
        apply Hmono in H1. apply (p_adj _ _ _ HI') in H1 as [H1|H1]; [contradiction|assumption]. }
      split.
      + split; [rewrite app_length; lia|].
        intros i m' n Hi Hnth Hadj. rewrite nth_error_app1 in Hnth by lia.
        destruct (Nat.eq_dec i h) as [->|Hne].
        * rewrite Em in Hnth. injection Hnth as <-. apply Hdone. apply Hns. assumption.
        * apply (pdone_mono Q _ L); auto.
          { intros y Hy. apply in_or_app; auto. }
          { apply (Hcl0 i m'); auto. lia. }
      + intros H0. rewrite nth_error_app1; auto. lia.
  Qed.

  Lemma perim_loop Q L h st : pinv Q L st -> pouter h Q L ->
    forall f, N - h < f ->
    exists Q' L' st', loop f (perim_body indptr indices) (st, h) = Ok st'
      /\ pinv Q' L' st' /\ pouter (length Q') Q' L' /\ (nth_error Q 0 = Some root -> nth_error Q' 0 = Some root).
  Proof.
    intros HI HO f. revert Q L h st HI HO. induction f as [|f IH]; intros Q L h st HI HO Hf; [lia|].
    cbn [loop]. destruct (Nat.lt_ge_cases h (pqt st)) as [Hlt|Hge].
    - destruct (perim_body_step Q L h st HI HO Hlt) as (Q1 & L1 & st1 & E1 & HI1 & HO1 & Hr1).
      rewrite E1. cbn [bind].
      pose proof (pinv_room _ _ _ HI). rewrite (p_qt _ _ _ HI) in Hlt.
      destruct (IH Q1 L1 (S h) st1 HI1 HO1) as (Q2 & L2 & st2 & E2 & HI2 & HO2 & Hr2); [lia|].
      exists Q2, L2, st2. split; [exact E2|]. split; [exact HI2|]. split; [exact HO2|]. auto.
    - unfold perim_body. destruct (Nat.ltb_spec h (pqt st)); [lia|]. cbn [bind].
      exists Q, L, st. split; auto. split; auto. split; auto.
      rewrite (p_qt _ _ _ HI) in Hge. destruct HO as [H1 H2].
      replace (length Q) with h by lia. split; auto. 
  Qed.

  (** ** Phase 2 *)
  Section Phase2.
  Variable comp : nat -> Prop.
  Variable stp1 : list (F * F * F).
  Hypothesis Hstp1 : length stp1 = N.
  Hypothesis Hcomp : forall n, comp n -> wet0 n.
  Hypothesis Hokb1 : forall n s t p, nth_error stp1 n = Some (s, t, p) -> isfinite p = true -> okb (s, t, p).
  Hypothesis Hcomp1 : forall n, wet_at stp1 n <-> comp n.
  Hypothesis Hreach : forall n, comp n -> reach E comp root n.

  Record qinv (c : nat) (L D : list nat) (st : qstate) : Prop := mkqinv {
    q_back : back (qqu st) (qqT st) L;
    q_la : length (qadj st) = N;
    q_ls : length (qstp st) = N;
    q_c : c <= length L;
    q_ndL : NoDup L;
    q_L : forall n, In n L -> n < N /\ ~ wet0 n;
    q_adj : forall n, mask (qadj st) n <-> wet0 n \/ In n L;
    q_ndD : NoDup D;
    q_D : forall n, In n D -> In n (firstn c L);
    q_new : qnew st = length D;
    q_keep : forall n, ~ In n D -> nth_error (qstp st) n = nth_error stp1 n;
    q_okb : forall n s t p, nth_error (qstp st) n = Some (s, t, p) -> isfinite p = true -> okb (s, t, p);
    q_closed : forall x n, comp x \/ In x D -> E x n -> mask (qadj st) n;
    q_par : forall n, In n L -> exists x, reach E (fun y => comp y \/ In y D) root x /\ E x n;
    q_wetted : forall m, In m D -> wetted comp (qstp st) m;
    q_unlink : forall m, In m (firstn c L) -> ~ In m D -> unlinkable comp (qstp st) m
  }.

  Lemma comp_not_D c L D st n : qinv c L D st -> comp n -> ~ In n D.
  Proof.
    intros HI Hn HD. apply (q_D _ _ _ _ HI) in HD.
    assert (HL : In n L) by (rewrite <- (firstn_skipn c L); apply in_or_app; auto).
    apply (q_L _ _ _ _ HI) in HL as [_ H]. auto.
  Qed.

  (** node n is used for the link *)
  Definition takes (Pm : list F) (Sppc Tppc : list (list F)) (stp : list (F * F * F)) (n : nat) : bool :=
    match nth_error stp n with
    | Some (s, t, p) =>
        isfinite p && match ntp_bottle_to_cast_ppc eos fuel tol_p s t p Pm Sppc Tppc with
                      | Ok q => match (if isfinite q then (let! ml := get p_ml n in Ok (ltb ml q)) else Ok false) with Ok b => b | Err _ => false end
                      | Err _ => false
                      end
    | None => false
    end.

  (** links gathered so far from the neighbours in [done] *)
  Definition linv (Pm : list F) (Sppc Tppc : list (list F)) (stp : list (F * F * F)) (done : list nat) (acc : F * nat) : Prop :=
    exists ps : list (nat * F),
      fst acc = fold_left add (map snd ps) (lit 0%Z 0%Z) /\ snd acc = length ps
      /\ (forall n q, In (n, q) ps -> In n done /\ below_ml n q /\
            exists s t p, nth_error stp n = Some (s, t, p) /\ isfinite p = true
              /\ ntp_bottle_to_cast_ppc eos fuel tol_p s t p Pm Sppc Tppc = Ok q)
      /\ (forall n, In n done -> wet_at stp n ->
            exists s t p q, nth_error stp n = Some (s, t, p) /\ isfinite p = true
              /\ ntp_bottle_to_cast_ppc eos fuel tol_p s t p Pm Sppc Tppc = Ok q
              /\ (below_ml n q -> In (n, q) ps))
      /\ map fst ps = filter (takes Pm Sppc Tppc stp) done.

  Lemma perim_links_ok Pm Sppc Tppc stp neigh : length stp = N -> (forall n, In n neigh -> n < N) ->
    (forall n s t p, nth_error stp n = Some (s, t, p) -> isfinite p = true -> okb (s, t, p)) ->
    okor (linv Pm Sppc Tppc stp neigh)
      (fun e => exists s t p, isfinite p = true /\ okb (s, t, p) /\ ntp_bottle_to_cast_ppc eos fuel tol_p s t p Pm Sppc Tppc = Err e)
      (perim_links eos fuel tol_p p_ml Pm Sppc Tppc stp neigh).
  Proof.
    intros Hls Hlt Hokn. unfold perim_links. apply (for_each_okor (linv Pm Sppc Tppc stp)).
    - exists []. simpl. split; auto. split; auto. split; [intros ? ? []|split; [intros ? []|reflexivity]].
    - intros pre n post [p0 denom] El (ps & H1 & H2 & H3 & H4 & H5). cbn [fst snd] in *.
      assert (Hn : n < N) by (apply Hlt; rewrite El; apply in_or_app; right; left; reflexivity).
      destruct (get_lt stp n) as ([[s t] p] & Eb & Nb); [lia|]. rewrite Eb. cbn [bind].
      assert (H3' : forall n' q, In (n', q) ps -> In n' (pre ++ [n]) /\ below_ml n' q /\
            exists s t p, nth_error stp n' = Some (s, t, p) /\ isfinite p = true
              /\ ntp_bottle_to_cast_ppc eos fuel tol_p s t p Pm Sppc Tppc = Ok q).
      { intros n' q Hin. destruct (H3 n' q Hin) as [Ha Hb]. split; auto. apply in_or_app; auto. }
      destruct (isfinite p) eqn:Efin.
      + destruct (ntp_bottle_to_cast_ppc eos fuel tol_p s t p Pm Sppc Tppc) as [q|e] eqn:Eq; cbn [bind].
        2:{ cbn [okor]. exists s, t, p. split; [assumption|]. split; [|assumption]. apply (Hokn n); assumption. }
        destruct (get_lt p_ml n) as (ml & Eml & Nml); [lia|].
        assert (Hb : (exists ok, (if isfinite q then let! ml := get p_ml n in Ok (ltb ml q) else Ok false) = Ok ok
                     /\ (ok = true <-> below_ml n q))).
        { unfold S_wet.below_ml. destruct (isfinite q) eqn:Efq.
          - rewrite Eml. cbn [bind]. exists (ltb ml q). split; auto. split.
            + intros H. exists ml. auto.
            + intros (ml' & Hx & _ & Hy). congruence.
          - exists false. split; auto. split; [discriminate|]. intros (ml' & _ & H & _). discriminate. }
        destruct Hb as (ok & Eok & Hok).
        assert (Et : takes Pm Sppc Tppc stp n = ok) by (unfold takes; rewrite Nb, Efin, Eq, Eok; reflexivity).
        rewrite Eok. cbn [bind]. destruct ok; cbn [okor].
        * exists (ps ++ [(n, q)]). cbn [fst snd]. rewrite map_app, fold_left_app, app_length. simpl.
          split; [congruence|]. split; [lia|]. split; [|split].
          { intros n' q' Hin. apply in_app_or in Hin as [Hin|[Hin|[]]]; [apply H3'; auto|].
            injection Hin as <- <-. split; [apply in_or_app; right; left; reflexivity|].
            split; [apply Hok; reflexivity|]. exists s, t, p. auto. }
          { intros n' Hn' Hw. apply in_app_or in Hn' as [Hn'|[<-|[]]].
            - destruct (H4 n' Hn' Hw) as (s' & t' & p' & q' & Hx & Hy & Hz & Hv).
              exists s', t', p', q'. repeat split; auto. intros Hbm. apply in_or_app; auto.
            - exists s, t, p, q. repeat split; auto. intros _. apply in_or_app; right; left; reflexivity. }
          { rewrite map_app, filter_app, H5. cbn [map fst filter]. rewrite Et. reflexivity. }
        * exists ps. cbn [fst snd]. split; auto. split; auto. split; auto.
          split; [|rewrite filter_app, H5; cbn [filter]; rewrite Et, app_nil_r; reflexivity].
          intros n' Hn' Hw. apply in_app_or in Hn' as [Hn'|[<-|[]]]; [auto|].
          exists s, t, p, q. repeat split; auto. intros Hbm. apply Hok in Hbm. discriminate.
      + cbn [okor]. exists ps. cbn [fst snd]. split; auto. split; auto. split; auto.
        assert (Et : takes Pm Sppc Tppc stp n = false) by (unfold takes; rewrite Nb, Efin; reflexivity).
        split; [|rewrite filter_app, H5; cbn [filter]; rewrite Et, app_nil_r; reflexivity].
        intros n' Hn' Hw. apply in_app_or in Hn' as [Hn'|[<-|[]]]; [auto|].
        destruct Hw as (s' & t' & p' & Hx & Hy). congruence.
  Qed.

  Definition xinv (L : list nat) (wadj : list bool) (done : list nat) (x : list nat * nat * list bool) : Prop :=
    let '(qu', qT', adj') := x in
    exists L1, let L' := L ++ L1 in back qu' qT' L' /\ length adj' = N /\ NoDup L'
      /\ (forall n, In n L1 -> n < N /\ ~ wet0 n /\ In n done)
      /\ (forall n, mask adj' n <-> wet0 n \/ In n L')
      /\ (forall n, In n done -> mask adj' n).

  Lemma perim_extend_ok neigh qu qT wadj L :
    back qu qT L -> length wadj = N -> NoDup L -> (forall n, In n L -> n < N /\ ~ wet0 n) ->
    (forall n, mask wadj n <-> wet0 n \/ In n L) -> (forall n, In n neigh -> n < N) ->
    exists x, perim_extend neigh qu qT wadj = Ok x /\ xinv L wadj neigh x.
  Proof.
    intros Hb Hla Hnd HL Hadj Hlt. unfold perim_extend.
    apply (for_each_inv (xinv L wadj)).
    - exists []. rewrite app_nil_r. cbn zeta. split; [exact Hb|]. split; [exact Hla|]. split; [exact Hnd|].
      split; [intros ? []|]. split; [exact Hadj|intros ? []].
    - intros pre n post [[qu' qT'] adj'] El (L1 & H1 & H2 & H3 & H4 & H5 & H6). cbn zeta in *.
      assert (Hn : n < N) by (apply Hlt; rewrite El; apply in_or_app; right; left; reflexivity).
      destruct (get_lt adj' n) as (a & Ea & Na); [lia|]. rewrite Ea. cbn [bind]. destruct a.
      + eexists. split; [reflexivity|]. exists L1. cbn zeta. split; [exact H1|]. split; [exact H2|]. split; [exact H3|].
        split; [|split; [exact H5|]].
        * intros x Hx. destruct (H4 x Hx) as (Hy & Hz & Hw). repeat split; auto. apply in_or_app; auto.
        * intros x Hx. apply in_app_or in Hx as [Hx|[<-|[]]]; auto.
      + assert (Hn2 : ~ wet0 n /\ ~ In n (L ++ L1)).
        { split; intros H; assert (H' : mask adj' n) by (apply H5; auto); unfold mask in H'; congruence. }
        destruct Hn2 as [Hnw HnL].
        assert (Hroom : length (L ++ L1) < N).
        { eapply nodup_bound_strict; eauto. intros x Hx. apply in_app_or in Hx as [Hx|Hx]; [apply HL|apply H4]; auto. }
        destruct (back_push qu' qT' (L ++ L1) n H1 Hroom) as (q & qu2 & -> & Ep & -> & Hb').
        rewrite Ep. cbn [bind]. rewrite set_ok by lia. cbn [bind]. eexists. split; [reflexivity|].
        exists (L1 ++ [n]). rewrite app_assoc. cbn zeta. split; [assumption|]. split; [rewrite length_upd; assumption|].
        split; [apply NoDup_snoc; auto|]. split; [|split].
        * intros x Hx. apply in_app_or in Hx as [Hx|[<-|[]]].
          { destruct (H4 x Hx) as (Hy & Hz & Hw). repeat split; auto. apply in_or_app; auto. }
          { repeat split; auto. apply in_or_app; right; left; reflexivity. }
        * intros x. unfold mask. destruct (Nat.eq_dec n x) as [<-|Hne].
          { rewrite nth_error_upd_eq by lia. split; [|reflexivity]. intros _. right. apply in_or_app; right; left; reflexivity. }
          { rewrite nth_error_upd_neq by assumption. rewrite (H5 x). split; (intros [H|H]; [left; assumption|right]).
            - apply in_or_app; auto.
            - apply in_app_or in H as [H|[H|[]]]; auto. congruence. }
        * intros x Hx. unfold mask. destruct (Nat.eq_dec n x) as [<-|Hne].
          { apply nth_error_upd_eq. lia. }
          { rewrite nth_error_upd_neq by assumption. apply in_app_or in Hx as [Hx|[Hx|[]]]; [apply H6; auto|congruence]. }
  Qed.


  Lemma firstn_snoc {A} (l : list A) c x : nth_error l c = Some x -> firstn (S c) l = firstn c l ++ [x].
  Proof.
    revert c. induction l; intros [|c] H; simpl in *; try discriminate.
    - congruence.
    - f_equal. apply IHl. assumption.
  Qed.

  Lemma link_p_same stp stp' n m q : nth_error stp' n = nth_error stp n -> link_p stp n m q -> link_p stp' n m q.
  Proof.
    intros H (Pm & Sppc & Tppc & s & t & p & H1 & H2 & H3). exists Pm, Sppc, Tppc, s, t, p. rewrite H. auto.
  Qed.

  Lemma unlinkable_same stp stp' m : (forall n, comp n -> nth_error stp' n = nth_error stp n) ->
    unlinkable comp stp m -> unlinkable comp stp' m.
  Proof.
    intros H [He|Hl]; [left; assumption|right]. intros n Hn Hc. destruct (Hl n Hn Hc) as (q & H1 & H2).
    exists q. split; [|exact H2]. eapply link_p_same; [|exact H1]. auto.
  Qed.

  Lemma wetted_same stp stp' m :
    (forall n, wet_at stp n -> nth_error stp' n = nth_error stp n) ->
    (forall n, comp n -> nth_error stp' n = nth_error stp n) ->
    nth_error stp' m = nth_error stp m ->
    wetted comp stp m -> wetted comp stp' m.
  Proof.
    intros Hs Hc Hm (Pm & Sppc & Tppc & ps & s & t & p & H1 & H2 & H3 & H4 & H5 & H6 & H7 & H8).
    exists Pm, Sppc, Tppc, ps, s, t, p. rewrite Hm. split; [assumption|]. split; [assumption|]. 
    split; [assumption|]. split; [assumption|]. split; [assumption|]. split; [|split; [|exact H8]].
    - intros n q Hin. destruct (H6 n q Hin) as (Hb & Hd). split; auto.
      eapply link_p_same; [|exact Hb]. apply Hs.
      destruct Hb as (? & ? & ? & s' & t' & p' & _ & Hx & Hy & _). exists s', t', p'. auto.
    - intros n q Hn Hcn Hl Hb. apply H7; auto. eapply link_p_same; [|exact Hl]. symmetry. apply Hc. assumption.
  Qed.

  Lemma cast_at_p n : n < N -> exists S T P, nth_error casts n = Some (S, T, P) /\ length S <= length P.
  Proof.
    intros Hn. destruct (nth_error casts n) as [[[S T] P]|] eqn:En.
    - exists S, T, P. split; auto. eapply Hcl. eapply nth_error_In; eauto.
    - apply nth_error_None in En. lia.
  Qed.

  Lemma cast_ppc_fun m Pm Sppc Tppc Pm' Sppc' Tppc' :
    cast_ppc m Pm Sppc Tppc -> cast_ppc m Pm' Sppc' Tppc' -> Pm' = Pm /\ Sppc' = Sppc /\ Tppc' = Tppc.
  Proof.
    intros (S & T & P & k & K & H1 & H2 & H3 & H4 & H5 & H6) (S' & T' & P' & k' & K' & G1 & G2 & G3 & G4 & G5 & G6).
    rewrite H1 in G1. injection G1 as <- <- <-. rewrite H2 in G2. injection G2 as <- <-. subst Pm Pm'.
    rewrite H5 in G5. rewrite H6 in G6. repeat split; congruence.
  Qed.

  Lemma perim_cast_ok c L D st :
    qinv c L D st -> c < length L ->
    okor (fun st' => exists L1 D', qinv (S c) (L ++ L1) D' st') blame_p
         (perim_cast eos ppc_fn fuel casts tol_p p_ml indptr indices (N - 1 - c) st).
  Proof.
    intros HI Hc. destruct (nth_error L c) as [m|] eqn:Em; [|apply nth_error_None in Em; lia].
    assert (HmL : In m L) by (eapply nth_error_In; eauto).
    destruct (q_L _ _ _ _ HI m HmL) as [Hm Hmdry].
    assert (Hmf : ~ In m (firstn c L)).
    { intros H. apply In_nth_error in H as [i Hi]. assert (Hic : i < c).
      { apply nth_error_lt in Hi. rewrite firstn_length in Hi. lia. }
      rewrite nth_error_firstn in Hi by assumption.
      assert (i = c); [|lia]. apply (proj1 (NoDup_nth_error L) (q_ndL _ _ _ _ HI)); [lia|congruence]. }
    assert (HmD : ~ In m D) by (intros H; apply Hmf, (q_D _ _ _ _ HI), H).
    assert (Hmcomp : ~ comp m) by auto.
    assert (Hmnotwet : ~ wet_at (qstp st) m).
    { intros (s & t & p & H1 & H2). rewrite (q_keep _ _ _ _ HI m HmD) in H1. apply Hmcomp, Hcomp1.
      exists s, t, p. auto. }
    pose proof (q_back _ _ _ _ HI) as Hb. pose proof Hb as (Hlq & HqT & Hnth).
    destruct st as [qu wadj qT new stp]. cbn [qqu qadj qqT qnew qstp] in *.
    pose proof (q_la _ _ _ _ HI) as Hla. pose proof (q_ls _ _ _ _ HI) as Hls. cbn [qqu qadj qqT qnew qstp] in *.
    unfold perim_cast.
    rewrite (get_ok qu (N - 1 - c) m) by (rewrite Hnth by assumption; assumption). cbn [bind].
    destruct (cast_at_p m Hm) as (Sm & Tm & P & Ec & Hlen).
    rewrite (get_ok _ _ _ Ec). cbn [bind].
    destruct (valid_range_1_two_spec Sm P Hlen) as (k & K & EkK & _). rewrite EkK. cbn [bind].
    (* a pass over a cast that is not wetted *)
    assert (Hskip : unlinkable comp stp m -> qinv (S c) (L ++ []) D (mkQ qu wadj qT new stp)).
    { intros Hun. rewrite app_nil_r. destruct HI; constructor; cbn [qqu qadj qqT qnew qstp] in *; auto.
      - intros n Hn. rewrite (firstn_snoc L c m Em). apply in_or_app; auto.
      - intros n Hn Hnd. rewrite (firstn_snoc L c m Em) in Hn.
        apply in_app_or in Hn as [Hn|[<-|[]]]; auto. }
    destruct (Nat.ltb_spec 1 (K - k)) as [Hgt|Hle].
    2:{ cbn [okor]. exists [], D. apply Hskip. left. exists Sm, Tm, P, k, K. auto. }
    destruct (ppc_fn (slice P k K) (slice Sm k K)) as [Sppc|e] eqn:ES; cbn [bind].
    2:{ cbn [okor]. left. exists Sm, Tm, P, k, K, m. auto 10. }
    destruct (ppc_fn (slice P k K) (slice Tm k K)) as [Tppc|e] eqn:ET; cbn [bind].
    2:{ cbn [okor]. left. exists Sm, Tm, P, k, K, m. auto 10. }
    assert (Hcp : cast_ppc m (slice P k K) Sppc Tppc) by (exists Sm, Tm, P, k, K; auto 10).
    set (Pm := slice P k K) in *.
    destruct (neighbours_spec N indptr indices Hcsr m Hm) as (neigh & En & Hns). rewrite En. cbn [bind].
    assert (Hnl : forall n, In n neigh -> n < N).
    { intros n Hn. destruct Hcsr as [_ Ha]. apply (Ha m); auto. apply Hns. assumption. }
    pose proof (perim_links_ok Pm Sppc Tppc stp neigh Hls Hnl (q_okb _ _ _ _ HI)) as Hlk.
    destruct (perim_links eos fuel tol_p p_ml Pm Sppc Tppc stp neigh) as [[p0 denom]|e]; cbn [okor bind] in *.
    2:{ right. exists m, Pm, Sppc, Tppc. split; [assumption|]. left. assumption. }
    destruct Hlk as (ps & H1 & H2 & H3 & H4 & Hused). cbn [fst snd] in *.
    rewrite (neighbours_listed _ _ _ _ En) in Hused.
    assert (Hall : forall n q, E m n -> comp n -> link_p stp n m (Ok q) -> below_ml n q -> In (n, q) ps).
    { intros n q Hmn Hcn (Pm' & Sppc' & Tppc' & s & t & p & G1 & G2 & G3 & G4) Hbm.
      destruct (cast_ppc_fun _ _ _ _ _ _ _ Hcp G1) as (-> & -> & ->).
      destruct (H4 n) as (s' & t' & p' & q' & G5 & G6 & G7 & G8); [apply Hns; assumption|exists s, t, p; auto|].
      rewrite G2 in G5. injection G5 as <- <- <-. rewrite G4 in G7. injection G7 as <-. auto. }
    assert (Hsome : forall n q, In (n, q) ps -> E m n /\ link_p stp n m (Ok q) /\ below_ml n q).
    { intros n q Hin. destruct (H3 n q Hin) as (G1 & G2 & s & t & p & G3 & G4 & G5).
      split; [apply Hns; assumption|]. split; [|assumption]. exists Pm, Sppc, Tppc, s, t, p. auto. }
    destruct (Nat.eqb_spec denom 0) as [Hd|Hd].
    { cbn [okor]. exists [], D. apply Hskip. right. intros n Hmn Hcn.
      assert (Hw : wet_at stp n).
      { pose proof (comp_not_D _ _ _ _ n HI Hcn) as HnD.
        apply Hcomp1 in Hcn as (s & t & p & G1 & G2). exists s, t, p. split; auto.
        rewrite <- G1. apply (q_keep _ _ _ _ HI). assumption. }
      destruct (H4 n) as (s & t & p & q & G5 & G6 & G7 & G8); [apply Hns; assumption|assumption|].
      exists q. split; [exists Pm, Sppc, Tppc, s, t, p; auto|]. intros Hbm. apply G8 in Hbm.
      destruct ps; [destruct Hbm|simpl in *; lia]. }
    assert (Hfew : length ps <= length (listed indptr indices m)).
    { rewrite <- (map_length fst), Hused. clear. induction (listed indptr indices m) as [|x l IH]; [apply le_n|]. cbn [filter]. destruct (takes _ _ _ _ x); cbn [length]; lia. }
    destruct (sdiv p0 (of_nat denom)) as [p|e] eqn:Ed; cbn [bind].
    2:{ cbn [okor]. right. exists m, Pm, Sppc, Tppc. split; [assumption|]. right. left. 
        destruct denom as [|d]; [lia|]. exists p0, d. split; [lia|assumption]. }
    assert (Hmean : mean_link eos fuel tol_p okb (length (listed indptr indices m)) Pm Sppc Tppc p).
    { exists (map snd ps). split; [|split; [|split]].
      - intros Hnil. apply map_eq_nil in Hnil. subst ps. simpl in *. lia.
      - rewrite map_length. exact Hfew.
      - intros q Hq. apply in_map_iff in Hq as ([n q'] & <- & Hin). cbn [snd].
        destruct (H3 n q' Hin) as (_ & (ml & _ & G1 & _) & s & t & p' & G3 & G4 & G5). split; [assumption|].
        exists s, t, p'. split; [|auto]. apply (q_okb _ _ _ _ HI n); assumption.
      - rewrite map_length, <- H2, <- H1. assumption. }
    destruct (ppval_1_two p Pm Sppc Tppc 0) as [[s t]|e] eqn:Ep; cbn [bind].
    2:{ cbn [okor]. right. exists m, Pm, Sppc, Tppc. split; [assumption|]. right. right. exists p. auto. }
    rewrite set_ok by lia. cbn [bind].
    destruct (perim_extend_ok neigh qu qT wadj L Hb Hla (q_ndL _ _ _ _ HI) (q_L _ _ _ _ HI) (q_adj _ _ _ _ HI) Hnl)
      as ([[qu' qT'] adj'] & Ex & L1 & X1 & X2 & X3 & X4 & X5 & X6).
    rewrite Ex. cbn [bind okor]. cbn zeta in *.
    exists L1, (m :: D).
    assert (Hup : forall n, m <> n -> nth_error (upd stp m (s, t, p)) n = nth_error stp n)
      by (intros; apply nth_error_upd_neq; assumption).
    assert (Hcm : forall n, comp n -> nth_error (upd stp m (s, t, p)) n = nth_error stp n)
      by (intros n Hn; apply Hup; intros <-; auto).
    assert (Hwm : forall n, wet_at stp n -> nth_error (upd stp m (s, t, p)) n = nth_error stp n)
      by (intros n Hn; apply Hup; intros <-; auto).
    constructor; cbn [qqu qadj qqT qnew qstp]; auto.
    - rewrite length_upd. assumption.
    - rewrite app_length. lia.
    - intros n Hn. apply in_app_or in Hn as [Hn|Hn]; [apply (q_L _ _ _ _ HI); auto|].
      destruct (X4 n Hn) as (G1 & G2 & _). auto.
    - constructor; [assumption|apply HI].
    - intros n Hn. assert (Hf : firstn (S c) (L ++ L1) = firstn c L ++ [m]).
      { rewrite firstn_app. replace (S c - length L) with 0 by lia. simpl. rewrite app_nil_r.
        apply firstn_snoc. assumption. }
      change (match L ++ L1 with [] => [] | a :: l => a :: firstn c l end) with (firstn (S c) (L ++ L1)).
      rewrite Hf. apply in_or_app. destruct Hn as [<-|Hn]; [right; left; reflexivity|left].
      apply (q_D _ _ _ _ HI). assumption.
    - simpl. rewrite <- (q_new _ _ _ _ HI). reflexivity.
    - intros n Hn. simpl in Hn. rewrite Hup by tauto. apply (q_keep _ _ _ _ HI). tauto.
    - intros n s' t' p' Hn Hf. destruct (Nat.eq_dec m n) as [<-|Hne].
      + rewrite nth_error_upd_eq in Hn by lia. injection Hn as <- <- <-.
        apply (proj2 Hokb m Pm Sppc Tppc); assumption.
      + rewrite Hup in Hn by assumption. apply (q_okb _ _ _ _ HI n); assumption.
    - intros x n Hx Hxn.
      assert (Hcase : comp x \/ In x D \/ x = m) by (simpl in Hx; intuition).
      destruct Hcase as [Hcase|[Hcase| ->]].
      + pose proof (q_closed _ _ _ _ HI x n (or_introl Hcase) Hxn) as G. apply (q_adj _ _ _ _ HI) in G.
        apply X5. destruct G; auto. right. apply in_or_app; auto.
      + pose proof (q_closed _ _ _ _ HI x n (or_intror Hcase) Hxn) as G. apply (q_adj _ _ _ _ HI) in G.
        apply X5. destruct G; auto. right. apply in_or_app; auto.
      + apply X6. apply Hns. assumption.
    - intros n Hn. apply in_app_or in Hn as [Hn|Hn].
      + destruct (q_par _ _ _ _ HI n Hn) as (x & G1 & G2). exists x. split; auto.
        eapply reach_mono; [|exact G1]. simpl. tauto.
      + destruct (X4 n Hn) as (_ & _ & G). exists m. split; [|apply Hns; assumption].
        destruct (q_par _ _ _ _ HI m HmL) as (x & G1 & G2).
        apply (reach_mono _ _ (fun y => comp y \/ In y (m :: D))) in G1 as [kx G1]; [|simpl; tauto].
        exists (S kx). apply walk_S with x; auto. right. left. reflexivity.
    - intros x [<-|Hx].
      + exists Pm, Sppc, Tppc, ps, s, t, p. split; [assumption|]. split; [intros ->; simpl in *; lia|].
        split; [rewrite <- H2, <- H1; assumption|]. split; [assumption|].
        split; [apply nth_error_upd_eq; lia|]. split; [|split; [|eexists; exact Hused]].
        * intros n q Hin. destruct (Hsome n q Hin) as (G1 & G2 & G3). split; auto.
          eapply link_p_same; [|exact G2]. apply Hwm.
          destruct G2 as (? & ? & ? & s' & t' & p' & _ & Gx & Gy & _). exists s', t', p'. auto.
        * intros n q Hmn Hcn Hl Hbm. rewrite <- (neighbours_listed _ _ _ _ En) in Hmn. apply Hall; [apply Hns; exact Hmn|assumption| |assumption]. eapply link_p_same; [|exact Hl]. symmetry. apply Hcm. assumption.
      + apply (wetted_same stp); auto.
        * apply Hup. intros <-. auto.
        * apply (q_wetted _ _ _ _ HI). assumption.
    - intros x Hx HxD. assert (Hf : firstn (S c) (L ++ L1) = firstn c L ++ [m]).
      { rewrite firstn_app. replace (S c - length L) with 0 by lia. simpl. rewrite app_nil_r.
        apply firstn_snoc. assumption. }
      change (match L ++ L1 with [] => [] | a :: l => a :: firstn c l end) with (firstn (S c) (L ++ L1)) in Hx.
      rewrite Hf in Hx. apply in_app_or in Hx as [Hx|[<-|[]]].
      + apply (unlinkable_same stp); auto. apply (q_unlink _ _ _ _ HI); auto. simpl in HxD. tauto.
      + exfalso. apply HxD. left. reflexivity.
  Qed.

  (** one pass over the perimeter: positions N-1-c, ..., bot *)
  Lemma perim_pass_ok n c L D st :
    qinv c L D st -> c + n <= length L ->
    okor (fun st' => exists L1 D', qinv (c + n) (L ++ L1) D' st') blame_p
      (for_each (rev (seq (N - c - n) n)) (perim_cast eos ppc_fn fuel casts tol_p p_ml indptr indices) st).
  Proof.
    revert c L D st. induction n as [|n IH]; intros c L D st HI Hc.
    - simpl. exists [], D. rewrite app_nil_r, Nat.add_0_r. assumption.
    - assert (HN : length L <= N).
      { destruct (q_back _ _ _ _ HI) as (_ & H & _). lia. }
      replace (rev (seq (N - c - S n) (S n))) with ((N - 1 - c) :: rev (seq (N - S c - n) n)).
      2:{ replace (N - c - S n) with (N - S c - n) by lia.
          rewrite <- (Nat.add_1_r n), seq_app, rev_app_distr. simpl. f_equal. lia. }
      cbn [for_each]. eapply okor_bind; [apply (perim_cast_ok c L D st HI); lia|].
      intros st' _ (L1 & D' & HI'). 
      specialize (IH (S c) (L ++ L1) D' st' HI'). 
      destruct (for_each _ _ st') as [st2|e]; cbn [okor] in *; [|apply IH; rewrite app_length; lia].
      destruct IH as (L2 & D2 & HI2); [rewrite app_length; lia|].
      exists (L1 ++ L2), D2. rewrite app_assoc. replace (c + S n) with (S c + n) by lia. assumption.
  Qed.

  Lemma perim_reps_ok n_rep c L D st :
    qinv c L D st ->
    okor (fun st' => exists c' L' D', qinv c' L' D' st' /\ c <= c'
           /\ (length L - c <= c' - c \/ n_rep = 0)
           /\ (N - c <= n_rep -> c' = length L') /\ (exists X, L' = L ++ X)) blame_p
      (perim_reps eos ppc_fn fuel casts tol_p p_ml indptr indices n_rep (N - c) st).
  Proof.
    revert c L D st. induction n_rep as [|r IH]; intros c L D st HI; cbn [perim_reps].
    - cbn [okor]. exists c, L, D. split; auto. split; auto. split; auto. split.
      + intros H. destruct (q_back _ _ _ _ HI) as (_ & H1 & _). pose proof (q_c _ _ _ _ HI). lia.
      + exists []. symmetry. apply app_nil_r.
    - destruct (q_back _ _ _ _ HI) as (_ & Hb & _). pose proof (q_c _ _ _ _ HI) as Hc.
      destruct (Nat.ltb_spec (qqT st) (N - c)) as [Hlt|Hge].
      + replace (N - c - qqT st) with (length L - c) by lia.
        replace (qqT st) with (N - c - (length L - c)) by lia.
        eapply okor_bind; [apply (perim_pass_ok (length L - c) c L D st HI); lia|].
        intros st' _ (L1 & D1 & HI1).
        replace (c + (length L - c)) with (length L) in HI1 by lia.
        replace (N - c - (length L - c)) with (N - length L) by lia.
        specialize (IH (length L) (L ++ L1) D1 st' HI1).
        destruct (perim_reps eos ppc_fn fuel casts tol_p p_ml indptr indices r (N - length L) st') as [st2|e];
          cbn [okor] in *; auto.
        destruct IH as (c' & L' & D' & HI' & G1 & G2 & G3 & X & G4).
        exists c', L', D'. split; auto. split; [lia|]. split; [left; lia|]. split.
        * intros H. apply G3. lia.
        * exists (L1 ++ X). rewrite app_assoc. assumption.
      + cbn [okor]. exists c, L, D. split; auto. split; auto. split; [left; lia|]. split; [lia|].
        exists []. symmetry. apply app_nil_r.
  Qed.
  End Phase2.

  Lemma comp_mask l : forall g, length g = N -> (forall n, In n l -> n < N) ->
    exists g', for_each l (fun j (good : list bool) => set good j true) g = Ok g' /\ length g' = N
      /\ forall n, n < N -> (nth_error g' n = Some true <-> In n l \/ nth_error g n = Some true).
  Proof.
    induction l as [|x l IH]; intros g Hg Hl; cbn [for_each].
    - exists g. split; auto. split; auto. intros n Hn. simpl. tauto.
    - rewrite set_ok by (rewrite Hg; apply Hl; left; reflexivity). cbn [bind].
      destruct (IH (upd g x true)) as (g' & H1 & H2 & H3).
      + rewrite length_upd. assumption.
      + intros n Hn. apply Hl. right. assumption.
      + exists g'. split; [exact H1|]. split; [exact H2|]. intros n Hn. rewrite H3 by assumption.
        destruct (Nat.eq_dec x n) as [<-|Hne].
        * rewrite nth_error_upd_eq by lia. simpl. tauto.
        * rewrite nth_error_upd_neq by assumption. simpl. tauto.
  Qed.

  Lemma nth_error_combine {A B} (l : list A) (l' : list B) n :
    nth_error (combine l l') n =
      match nth_error l n, nth_error l' n with Some a, Some b => Some (a, b) | _, _ => None end.
  Proof.
    revert l' n. induction l as [|a l IH]; intros [|b l'] [|n]; simpl; auto.
    - destruct (nth_error l n); reflexivity.
  Qed.

  Lemma bfs_wet_perim_correct junk n_rep : root < N -> N <= length junk -> forall lf, N < lf ->
    let C := reach E wet0 root in
    okor (fun r : nat * list (F * F * F) => let (new, stp) := r in exists D : list nat,
        new = length D /\ NoDup D /\ length stp = N
        /\ (forall n, C n -> nth_error stp n = nth_error stp0 n)
        /\ (forall n s t p, ~ C n -> ~ In n D -> nth_error stp0 n = Some (s, t, p) -> nth_error stp n = Some (s, t, nan))
        /\ (forall n, In n D -> n < N /\ ~ wet0 n /\ reach E (fun y => C y \/ In y D) root n /\ wetted C stp n)
        /\ (1 <= n_rep -> forall x n, C x -> E x n -> ~ wet0 n -> ~ In n D -> unlinkable C stp n)
        /\ (N <= n_rep -> forall x n, C x \/ In x D -> E x n -> ~ wet0 n -> ~ In n D -> unlinkable C stp n)
        /\ (forall n s t p, nth_error stp n = Some (s, t, p) -> isfinite p = true -> okb (s, t, p)))
      blame_p
      (bfs_conncomp1_wet_perim eos ppc_fn fuel casts tol_p p_ml lf junk indptr indices root n_rep stp0).
  Proof.
    intros Hroot Hjunk lf Hlf C. unfold bfs_conncomp1_wet_perim. rewrite map_length, Hstp.
    set (good := map (fun x : F * F * F => isfinite (snd x)) stp0).
    assert (Hlg : length good = N) by (unfold good; rewrite map_length; assumption).
    assert (Hgood : forall n, mask good n <-> wet0 n).
    { intros n. unfold mask, good. rewrite nth_error_map. split.
      - destruct (nth_error stp0 n) as [[[s t] p]|] eqn:En; simpl; [|discriminate].
        intros H. injection H as H. exists s, t, p. auto.
      - intros (s & t & p & H1 & H2). rewrite H1. simpl. congruence. }
    destruct (get_lt good root) as (g & Eg & Ng); [lia|]. rewrite Eg. cbn [bind].
    set (st0 := mkP (if g then upd (firstn N junk) 0 root else firstn N junk) (if g then 1 else 0)
                  (if g then upd good root false else good) good N).
    assert (Est : (if g then let! qu := set (firstn N junk) 0 root in let! good' := set good root false in
                  Ok (mkP qu 1 good' good N) else Ok (mkP (firstn N junk) 0 good good N)) = Ok st0).
    { unfold st0. destruct g; auto. rewrite !set_ok by (rewrite ?firstn_length; lia). reflexivity. }
    rewrite Est. cbn [bind]. clear Est.
    set (Q0 := if g then [root] else []).
    assert (HQ0 : forall n, In n Q0 <-> (n = root /\ g = true)).
    { intros n. unfold Q0. destruct g; simpl; intuition congruence. }
    assert (HI0 : pinv Q0 [] st0).
    { constructor; unfold st0; cbn [pqu pqt pgood padj pqT].
      - unfold Q0. destruct g; [|reflexivity]. rewrite firstn_upd_snoc; [reflexivity|]. rewrite firstn_length. lia.
      - unfold Q0. destruct g; reflexivity.
      - split; [|split; [simpl; lia|simpl; lia]]. destruct g; rewrite ?length_upd, firstn_length; lia.
      - destruct g; rewrite ?length_upd; assumption.
      - assumption.
      - unfold Q0. destruct g; repeat constructor; simpl; tauto.
      - constructor.
      - intros n Hn. apply HQ0 in Hn as [-> ->]. exists 0. constructor. apply Hgood. assumption.
      - intros n [].
      - intros n [].
      - intros n. destruct g.
        + unfold mask. destruct (Nat.eq_dec root n) as [<-|Hne].
          * rewrite nth_error_upd_eq by lia. split; [discriminate|]. intros [_ H]. exfalso. apply H, HQ0. auto.
          * rewrite nth_error_upd_neq by assumption. fold (mask good n). rewrite Hgood. split; [|tauto].
            intros H. split; auto. rewrite HQ0. intros [-> _]. congruence.
        + rewrite Hgood. split; [|tauto]. intros H. split; [exact H|]. intros [].
      - intros n. rewrite Hgood. simpl. tauto. }
    destruct (perim_loop Q0 [] 0 st0 HI0) with (f := lf) as (Q & L & st & El & HI & HO & Hr); [|lia|].
    { split; [lia|]. intros i m n Hi. lia. }
    rewrite El. cbn [bind]. rewrite (p_q _ _ _ HI).
    assert (HQC : forall n, In n Q <-> C n).
    { intros n. split; [apply (p_Q _ _ _ HI)|]. intros [k HW]. induction HW as [Hw|k m n HW IH Hmn Hw].
      - assert (g = true). { apply Hgood in Hw. unfold mask in Hw. congruence. }
        apply nth_error_In with 0. apply Hr. unfold Q0. rewrite H. reflexivity.
      - apply In_nth_error in IH as [i Hi]. apply (proj2 HO i m n); auto. apply nth_error_lt in Hi. assumption. }
    destruct (comp_mask Q (repeat false N)) as (gm & Egm & Hgl & Hgm).
    { apply repeat_length. }
    { intros n Hn. apply wet0_lt, reach_wet, HQC. assumption. }
    rewrite Egm. cbn [bind].
    assert (Hgm' : forall n, n < N -> (nth_error gm n = Some true <-> C n)).
    { intros n Hn. rewrite Hgm by assumption. rewrite HQC. split; [|tauto]. intros [H|H]; auto.
      apply nth_error_In, repeat_spec in H. discriminate. }
    set (stp1 := map (fun '(s, t, p, c) => if (c : bool) then (s, t, p) else (s, t, nan)) (combine stp0 gm)).
    assert (Hl1 : length stp1 = N) by (unfold stp1; rewrite map_length, combine_length; lia).
    assert (Hn1 : forall n s t p, nth_error stp0 n = Some (s, t, p) ->
       (C n -> nth_error stp1 n = Some (s, t, p)) /\ (~ C n -> nth_error stp1 n = Some (s, t, nan))).
    { intros n s t p Hn. unfold stp1. rewrite nth_error_map, nth_error_combine, Hn.
      assert (Hlt : n < N) by (apply nth_error_lt in Hn; lia).
      destruct (nth_error gm n) as [b|] eqn:Eb; [|apply nth_error_None in Eb; lia].
      pose proof (Hgm' n Hlt) as Hb. rewrite Eb in Hb. simpl.
      destruct b; split; intros HC; auto.
      - exfalso. apply HC, Hb. reflexivity.
      - apply Hb in HC. discriminate. }
    assert (Hsame : forall n, C n -> nth_error stp1 n = nth_error stp0 n).
    { intros n HC. pose proof (reach_wet n HC) as (s & t & p & H1 & H2). rewrite H1. apply Hn1; auto. }
    assert (Hwet1 : forall n, wet_at stp1 n <-> C n).
    { intros n. split.
      - intros (s & t & p & H1 & H2). assert (Hlt : n < N) by (apply nth_error_lt in H1; lia).
        destruct (nth_error stp0 n) as [[[s0 t0] p0]|] eqn:E0; [|apply nth_error_None in E0; lia].
        destruct (nth_error gm n) as [b|] eqn:Eb; [|apply nth_error_None in Eb; lia].
        pose proof (Hgm' n Hlt) as Hb. rewrite Eb in Hb. destruct b; [apply Hb; reflexivity|].
        assert (HnC : ~ C n) by (intros H; apply Hb in H; discriminate).
        destruct (Hn1 n s0 t0 p0 E0) as [_ H]. specialize (H HnC). congruence.
      - intros HC. pose proof (reach_wet n HC) as (s & t & p & H1 & H2). exists s, t, p.
        rewrite Hsame; auto. }
    assert (Hokb1 : forall n s t p, nth_error stp1 n = Some (s, t, p) -> isfinite p = true -> okb (s, t, p)).
    { intros n s t p Hn Hf. assert (HC : C n) by (apply Hwet1; exists s, t, p; auto).
      apply (proj1 Hokb n); auto. rewrite <- Hsame; auto. }
    assert (HCC : forall n, C n -> reach E C root n) by (intros n; apply reach_in_reach).
    assert (HI2 : qinv C stp1 0 L [] (mkQ (pqu st) (padj st) (pqT st) 0 stp1)).
    { constructor; cbn [qqu qadj qqT qnew qstp]; [apply HI|apply HI|exact Hl1|lia|apply HI|apply HI|apply HI| | | | | | | | |].
      - constructor.
      - intros n [].
      - reflexivity.
      - reflexivity.
      - exact Hokb1.
      - intros x n [HC|[]] Hxn. apply HQC in HC. apply In_nth_error in HC as [i Hi].
        destruct (proj2 HO i x n) as [H1 H2]; auto; [apply nth_error_lt in Hi; assumption|].
        apply (p_adj _ _ _ HI). destruct (wet0_dec stp0 Hnan n) as [Hw|Hw]; auto.
      - intros n Hn. destruct (p_Lpar _ _ _ HI n Hn) as (x & Hx & Hxn). exists x. split; auto.
        apply HQC in Hx. apply HCC in Hx. eapply reach_mono; [|exact Hx]. simpl. tauto.
      - intros m [].
      - intros m []. }
    pose proof (perim_reps_ok C stp1 Hl1 reach_wet Hwet1 n_rep 0 L [] _ HI2) as Hfin.
    rewrite (Nat.sub_0_r N) in Hfin.
    eapply okor_bind; [exact Hfin|]. intros st2 _ (c' & L' & D & HI' & _ & G2 & G3 & X & G4). cbn [okor].
    assert (HDL : forall n, In n D -> In n L').
    { intros n Hn. apply (q_D _ _ _ _ _ _ HI') in Hn. rewrite <- (firstn_skipn c' L'). apply in_or_app; auto. }
    assert (HCD : forall n, C n -> ~ In n D).
    { intros n Hn. apply (comp_not_D C stp1 reach_wet _ _ _ _ n HI' Hn). }
    exists D. split; [apply HI'|]. split; [apply HI'|]. split; [apply HI'|]. split; [|split; [|split; [|split; [|split]]]].
    - intros n HC. rewrite (q_keep _ _ _ _ _ _ HI') by auto. auto.
    - intros n s t p HC HD Hn. rewrite (q_keep _ _ _ _ _ _ HI') by assumption. apply (Hn1 n s t p Hn). assumption.
    - intros n Hn. destruct (q_L _ _ _ _ _ _ HI' n (HDL n Hn)) as [H1 H2].
      split; [assumption|]. split; [assumption|]. split; [|apply (q_wetted _ _ _ _ _ _ HI'); assumption].
      destruct (q_par _ _ _ _ _ _ HI' n (HDL n Hn)) as (x & [k HW] & Hxn). exists (S k). econstructor; eauto.
    - intros Hrep x n HC Hxn Hnw HnD. apply (q_unlink _ _ _ _ _ _ HI'); auto.
      assert (HnL : In n L).
      { apply HQC in HC. apply In_nth_error in HC as [i Hi].
        apply (proj2 HO i x n); auto. apply nth_error_lt in Hi. assumption. }
      destruct G2 as [G2|G2]; [|lia]. rewrite G4, firstn_app. apply in_or_app. left.
      rewrite firstn_all2 by lia. assumption.
    - intros Hrep x n HCx Hxn Hnw HnD. apply (q_unlink _ _ _ _ _ _ HI'); auto.
      rewrite G3 by lia. rewrite firstn_all.
      pose proof (q_closed _ _ _ _ _ _ HI' x n HCx Hxn) as H. apply (q_adj _ _ _ _ _ _ HI') in H. tauto.
    - exact (q_okb _ _ _ _ _ _ HI').
  Qed.
End Perim.
