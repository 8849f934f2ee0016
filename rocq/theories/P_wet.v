(** * bfs_conncomp1_wet: proofs *)
From Coq Require Import List ZArith Bool Lia.
From Verif Require Import Num Res Arr ArrLemmas S_graph M_ppinterp M_traj M_bfs S_wet P_bfs P_ppinterp.
Import ListNotations.

Lemma okor_bind {A B} (P : A -> Prop) (P' : B -> Prop) Q (x : res A) (f : A -> res B) :
  okor P Q x -> (forall a, x = Ok a -> P a -> okor P' Q (f a)) -> okor P' Q (bind x f).
Proof. destruct x; simpl; auto. Qed.

Lemma for_each_okor {X S} (P : list X -> S -> Prop) Q (l : list X) (body : X -> S -> res S) s :
  P [] s ->
  (forall pre x post s, l = pre ++ x :: post -> P pre s -> okor (P (pre ++ [x])) Q (body x s)) ->
  okor (P l) Q (for_each l body s).
Proof.
  intros H0 Hstep.
  assert (H : forall post pre s, l = pre ++ post -> P pre s -> okor (P l) Q (for_each post body s)).
  { induction post as [|x post IH]; intros pre s1 E Hp; simpl.
    - rewrite app_nil_r in E. subst. assumption.
    - specialize (Hstep pre x post s1 E Hp). destruct (body x s1) as [s2|e]; simpl in *; auto.
      apply (IH (pre ++ [x])); auto. rewrite <- app_assoc. assumption. }
  apply (H l []); auto.
Qed.

Lemma snoc_nth {A} (l : list A) x i y : nth_error (l ++ [x]) i = Some y ->
  nth_error l i = Some y \/ (i = length l /\ y = x).
Proof.
  intros H. destruct (Nat.lt_ge_cases i (length l)).
  - left. rewrite nth_error_app1 in H; auto.
  - right. rewrite nth_error_app2 in H by lia.
    destruct (i - length l) as [|[|]] eqn:E; simpl in H; inversion H. split; auto; lia.
Qed.

Section Wet.
  Context {F : Type} {Nm : Num F}.
  Variables (eos : F -> F -> F -> res F) (ppc_fn : list F -> list F -> res (list (list F))) (fuel : nat).
  Variables (casts : list (list F * list F * list F)) (tol_p : F) (p_ml : list F).
  Variables (N : nat) (indptr indices : list nat) (root : nat) (stp0 : list (F * F * F)).
  Hypothesis Hcsr : csr N indptr indices.
  Hypothesis Hcasts : length casts = N.
  Hypothesis Hml : length p_ml = N.
  Hypothesis Hstp : length stp0 = N.
  Hypothesis Hcl : forall S T P, In (S, T, P) casts -> length S <= length P.
  Hypothesis Hnan : isfinite (nan : F) = false.
  Let E := adj indptr indices.
  Variable okb : F * F * F -> Prop.
  Hypothesis Hokb : closed eos ppc_fn fuel casts tol_p okb stp0.

  Notation ntp_to := (ntp_to eos ppc_fn fuel casts tol_p).
  Notation accepted := (accepted p_ml).
  Notation blame := (blame eos ppc_fn fuel casts tol_p okb).

  (** too little data on cast n *)
  Definition landlocked (n : nat) : Prop := forall b, exists s t, ntp_to b n (Ok (s, t, nan)).

  Lemma cast_at n : n < N -> exists S T P, nth_error casts n = Some (S, T, P) /\ length S <= length P.
  Proof.
    intros Hn. destruct (nth_error casts n) as [[[S T] P]|] eqn:En.
    - exists S, T, P. split; auto. eapply Hcl. eapply nth_error_In; eauto.
    - apply nth_error_None in En. lia.
  Qed.

  Lemma wet_link_cases b n : n < N ->
    (wet_link eos ppc_fn fuel casts tol_p b n = Ok None /\ landlocked n)
    \/ (exists r, wet_link eos ppc_fn fuel casts tol_p b n = Ok (Some r) /\ ntp_to b n (Ok r))
    \/ (exists e, wet_link eos ppc_fn fuel casts tol_p b n = Err e /\ ntp_to b n (Err e)).
  Proof.
    intros Hn. destruct (cast_at n Hn) as (S & T & P & En & Hlen). unfold wet_link.
    rewrite (get_ok _ _ _ En). cbn [bind].
    destruct (valid_range_1_two_spec S P Hlen) as (k & K & EkK & _).
    rewrite EkK. cbn [bind].
    destruct (Nat.leb_spec (K - k) 1) as [Hle|Hgt].
    - left. split; [reflexivity|]. intros [[s t] p]. exists nan, nan. exists S, T, P. split; auto.
      unfold ntp_bottle_to_cast_pub. rewrite EkK. cbn [bind]. unfold ntp_bottle_to_cast.
      destruct (Nat.ltb_spec 1 (K - k)); [lia|reflexivity].
    - right. destruct b as [[s t] p].
      assert (Hp : ntp_bottle_to_cast_pub eos ppc_fn fuel s t p S T P tol_p
                   = ntp_bottle_to_cast eos ppc_fn fuel s t p S T P k K tol_p).
      { unfold ntp_bottle_to_cast_pub. rewrite EkK. reflexivity. }
      destruct (ntp_bottle_to_cast eos ppc_fn fuel s t p S T P k K tol_p) as [r|e] eqn:Er.
      + left. exists r. split; [reflexivity|]. exists S, T, P. auto.
      + right. exists e. split; [reflexivity|]. exists S, T, P. auto.
  Qed.

  Notation wet0 := (wet_at stp0).

  Record winv (Q : list nat) (st : wstate) : Prop := mkwinv {
    w_q : firstn (wqt st) (wqu st) = Q;
    w_qt : wqt st = length Q;
    w_lq : length (wqu st) = N;
    w_lg : length (wgood st) = N;
    w_ld : length (wdry st) = N;
    w_ls : length (wstp st) = N;
    w_nd : NoDup Q;
    w_lt : forall n, In n Q -> n < N;
    w_good : forall n, mask (wgood st) n <-> wet0 n /\ ~ In n Q;
    (* dry: originally dry, not in the queue, and not found to be without data *)
    w_dry : forall n, n < N -> (mask (wdry st) n -> ~ wet0 n /\ ~ In n Q)
                    /\ (~ mask (wdry st) n -> wet0 n \/ In n Q \/ landlocked n);
    w_wet : forall n, In n Q -> wet_at (wstp st) n;
    w_okb : forall n b, In n Q -> nth_error (wstp st) n = Some b -> okb b;
    w_keep : forall n, (wet0 n \/ ~ In n Q) -> nth_error (wstp st) n = nth_error stp0 n;
    w_par : forall i n, nth_error Q (S i) = Some n ->
            exists j m, j <= i /\ nth_error Q j = Some m /\ E m n
              /\ (wet0 n \/ exists b r, nth_error (wstp st) m = Some b /\ nth_error (wstp st) n = Some r
                                  /\ ntp_to b n (Ok r) /\ accepted n r);
    w_root : nth_error Q 0 = Some root;
    w_rootwet : wet0 root;
    w_new : exists D, NoDup D /\ (forall n, In n D <-> In n Q /\ ~ wet0 n) /\ wnew st = length D
  }.

  Lemma wet0_dec n : wet0 n \/ ~ wet0 n.
  Proof.
    unfold wet_at. destruct (nth_error stp0 n) as [[[s t] p]|] eqn:En.
    - destruct (isfinite p) eqn:Ef; [left; eauto 10|]. right. intros (s' & t' & p' & H & H'). congruence.
    - right. intros (s & t & p & H & _). discriminate.
  Qed.

  (** all neighbours in [done] of m have been dealt with *)
  Definition settled (Q : list nat) (stp : list (F * F * F)) (m n : nat) : Prop :=
    In n Q \/ (~ wet0 n /\ exists b r, nth_error stp m = Some b /\ ntp_to b n (Ok r) /\ ~ accepted n r).

  (** [stp'] agrees with [stp] on the nodes of Q *)
  Definition agree (Q : list nat) (stp stp' : list (F * F * F)) : Prop :=
    forall n, In n Q -> nth_error stp' n = nth_error stp n.

  Lemma settled_mono Q Q' stp stp' m n : In m Q -> incl Q Q' -> agree Q stp stp' ->
    settled Q stp m n -> settled Q' stp' m n.
  Proof.
    intros Hm Hi Ha [H|(H1 & b & r & H2 & H3)]; [left; auto|].
    right. split; auto. exists b, r. rewrite (Ha m Hm). auto.
  Qed.

  Definition winner (m : nat) (Q0 : list nat) (stpQ : list (F * F * F)) (done : list nat) (st : wstate) : Prop :=
    exists Q1, winv (Q0 ++ Q1) st /\ agree Q0 stpQ (wstp st)
      /\ (forall n, In n done -> settled (Q0 ++ Q1) (wstp st) m n).

  Lemma wet_visit_inner m hpos Q0 stpQ done n st :
    nth_error Q0 hpos = Some m -> E m n -> winner m Q0 stpQ done st ->
    okor (winner m Q0 stpQ (done ++ [n])) blame
         (wet_visit eos ppc_fn fuel casts tol_p p_ml m n st).
  Proof.
    intros Hm Hadj (Q1 & HI & Hag & Hdone).
    assert (HmQ0 : In m Q0) by (eapply nth_error_In; eauto).
    assert (HmQ : In m (Q0 ++ Q1)) by (apply in_or_app; auto).
    assert (Hml' : m < N) by (eapply w_lt; eauto).
    assert (Hn : n < N) by (destruct Hcsr as [_ Ha]; eapply Ha; eauto).
    (* adding node n to the queue *)
    assert (Hroom : ~ In n (Q0 ++ Q1) -> wqt st < N).
    { intros Hnin. rewrite (w_qt _ _ HI). eapply nodup_bound_strict; eauto using w_nd, w_lt. }
    destruct st as [qu qt good dry new stp]. unfold wet_visit.
    pose proof (w_lg _ _ HI) as Hlg. pose proof (w_ld _ _ HI) as Hld.
    pose proof (w_lq _ _ HI) as Hlq. pose proof (w_ls _ _ HI) as Hls.
    pose proof (w_q _ _ HI) as Hq. pose proof (w_qt _ _ HI) as Hqt.
    cbn [wqu wqt wgood wdry wnew wstp] in *.
    destruct (get_lt good n) as (g & Eg & Ng); [lia|]. rewrite Eg. cbn [bind].
    destruct g.
    - (* a wet, undiscovered node *)
      assert (Hg : wet0 n /\ ~ In n (Q0 ++ Q1)) by (apply (w_good _ _ HI); exact Ng).
      destruct Hg as [Hwet Hnin]. specialize (Hroom Hnin).
      rewrite !set_ok by lia. cbn [bind okor]. exists (Q1 ++ [n]). rewrite app_assoc.
      set (Q := Q0 ++ Q1) in *.
      split; [|split].
      + constructor; cbn [wqu wqt wgood wdry wnew wstp]; rewrite ?length_upd; auto.
        * rewrite firstn_upd_snoc by lia. f_equal. assumption.
        * rewrite app_length. simpl. lia.
        * apply NoDup_snoc; [eapply w_nd; eauto|assumption].
        * intros x Hx. apply in_app_or in Hx as [Hx|[<-|[]]]; auto. eapply w_lt; eauto.
        * intros x. unfold mask. destruct (Nat.eq_dec n x) as [<-|Hne].
          { rewrite nth_error_upd_eq by lia. split; [discriminate|].
            intros [_ H]. exfalso. apply H. apply in_or_app; right; left; reflexivity. }
          { rewrite nth_error_upd_neq by assumption. rewrite (w_good _ _ HI x).
            split; intros [H1 H2]; split; auto; intros H3; apply H2.
            - apply in_app_or in H3 as [H3|[H3|[]]]; auto. congruence.
            - apply in_or_app; auto. }
        * intros x Hx. destruct (w_dry _ _ HI x Hx) as [H1 H2]. cbn [wdry] in *. split.
          { intros Hd. destruct (H1 Hd) as [H3 H4]. split; auto. intros H5.
            apply in_app_or in H5 as [H5|[<-|[]]]; auto. }
          { intros Hd. destruct (H2 Hd) as [H3|[H3|H3]]; auto. right. left. apply in_or_app; auto. }
        * intros x Hx. apply in_app_or in Hx as [Hx|[<-|[]]]; [apply (w_wet _ _ HI); auto|].
          destruct Hwet as (s & t & p & H1 & H2). exists s, t, p. split; auto.
          rewrite <- H1. apply (w_keep _ _ HI). right. assumption.
        * intros x b Hx Hb. apply in_app_or in Hx as [Hx|[<-|[]]]; [apply (w_okb _ _ HI x b); auto|].
          destruct Hwet as (s & t & p & H1 & H2). rewrite <- (w_keep _ _ HI) in H1 by (right; assumption).
          cbn [wstp] in H1. assert (b = (s, t, p)) by congruence. subst b. apply (proj1 Hokb n); auto.
          rewrite <- H1. symmetry. apply (w_keep _ _ HI). right. assumption.
        * intros x Hx. apply (w_keep _ _ HI). destruct Hx as [Hx|Hx]; auto.
          right. intros H. apply Hx. apply in_or_app; auto.
        * intros i x Hx. apply snoc_nth in Hx as [Hx|[Hi ->]].
          { destruct (w_par _ _ HI i x Hx) as (j & m' & H1 & H2 & H3 & H4).
            exists j, m'. repeat split; auto. rewrite nth_error_app1; auto. eapply nth_error_lt; eauto. }
          { exists hpos, m. assert (hpos < length Q0) by (eapply nth_error_lt; eauto).
            assert (length Q = length Q0 + length Q1) by (unfold Q; apply app_length).
            repeat split; auto; [lia|]. unfold Q. rewrite <- app_assoc, nth_error_app1; auto. }
        * rewrite nth_error_app1; [apply (w_root _ _ HI)|]. pose proof (w_root _ _ HI) as Hr.
          eapply nth_error_lt; eauto.
        * apply (w_rootwet _ _ HI).
        * destruct (w_new _ _ HI) as (D & H1 & H2 & H3). exists D. split; auto. split; auto.
          intros x. rewrite H2. split; intros [H4 H5]; split; auto.
          { apply in_or_app; auto. }
          { apply in_app_or in H4 as [H4|[<-|[]]]; auto. tauto. }
      + assumption.
      + cbn [wstp]. intros x Hx. apply in_app_or in Hx as [Hx|[<-|[]]].
        * eapply settled_mono; [| |intros ? ?; reflexivity|apply Hdone; auto]; auto.
          intros y Hy. apply in_or_app; auto.
        * left. apply in_or_app; right; left; reflexivity.
    - destruct (get_lt dry n) as (d & Ed & Nd); [lia|]. rewrite Ed. cbn [bind].
      destruct d.
      + (* a dry node *)
        assert (Hd : ~ wet0 n /\ ~ In n (Q0 ++ Q1)) by (apply (w_dry _ _ HI); auto).
        destruct Hd as [Hdry Hnin]. specialize (Hroom Hnin).
        destruct (get_lt stp m) as (b & Eb & Nb); [lia|]. rewrite Eb. cbn [bind].
        destruct (wet_link_cases b n Hn) as [[El Hland]|[(r & El & Hr)|(e & El & He)]]; rewrite El; cbn [bind].
        * rewrite set_ok by lia. cbn [bind okor]. exists Q1. split; [|split].
          { destruct HI; constructor; cbn [wqu wqt wgood wdry wnew wstp] in *; rewrite ?length_upd; auto.
            intros x Hx. destruct (w_dry0 x Hx) as [H1 H2]. unfold mask.
            destruct (Nat.eq_dec n x) as [<-|Hne].
            - rewrite nth_error_upd_eq by lia. split; [discriminate|]. auto.
            - rewrite nth_error_upd_neq by assumption. auto. }
          { assumption. }
          { cbn [wstp]. intros x Hx. apply in_app_or in Hx as [Hx|[<-|[]]]; [apply Hdone; auto|].
            right. split; auto. destruct (Hland b) as (s & t & Hs). exists b, (s, t, nan). split; auto. split; auto.
            intros (ml & _ & H1 & H2). congruence. }
        * (* a link *)
          destruct r as [[s_ t_] p_].
          destruct (get_lt p_ml n) as (ml & Eml & Nml); [lia|].
          assert (Hb : (exists ok, (if isfinite p_ then let! ml := get p_ml n in Ok (ltb ml p_) else Ok false) = Ok ok
                     /\ (ok = true <-> accepted n (s_, t_, p_)))).
          { unfold S_wet.accepted, below_ml. destruct (isfinite p_) eqn:Efin.
            - rewrite Eml. cbn [bind]. exists (ltb ml p_). split; auto. split.
              + intros H. exists ml. auto.
              + intros (ml' & H1 & _ & H2). congruence.
            - exists false. split; auto. split; [discriminate|]. intros (ml' & _ & H & _). discriminate. }
          destruct Hb as (ok & Eok & Hok). rewrite Eok. cbn [bind]. destruct ok.
          { rewrite !set_ok by lia. cbn [bind okor]. exists (Q1 ++ [n]). rewrite app_assoc.
            assert (Hacc : accepted n (s_, t_, p_)) by (apply Hok; reflexivity).
            assert (Hfin : isfinite p_ = true) by (destruct Hacc as (? & _ & H & _); exact H).
            set (Q := Q0 ++ Q1) in *.
            assert (Hmn : m <> n) by (intros ->; auto).
            split; [|split].
            - constructor; cbn [wqu wqt wgood wdry wnew wstp]; rewrite ?length_upd; auto.
              + rewrite firstn_upd_snoc by lia. f_equal. assumption.
              + rewrite app_length. simpl. lia.
              + apply NoDup_snoc; [eapply w_nd; eauto|assumption].
              + intros x Hx. apply in_app_or in Hx as [Hx|[<-|[]]]; auto. eapply w_lt; eauto.
              + intros x. rewrite (w_good _ _ HI x). split; intros [H1 H2]; split; auto; intros H3.
                * apply in_app_or in H3 as [H3|[<-|[]]]; auto.
                * apply H2. apply in_or_app; auto.
              + intros x Hx. destruct (w_dry _ _ HI x Hx) as [H1 H2]. cbn [wdry] in *. unfold mask in *.
                destruct (Nat.eq_dec n x) as [<-|Hne].
                * rewrite nth_error_upd_eq by lia. split; [discriminate|].
                  intros _. right. left. apply in_or_app; right; left; reflexivity.
                * rewrite nth_error_upd_neq by assumption. split.
                  { intros Hd. destruct (H1 Hd) as [H3 H4]. split; auto. intros H5.
                    apply in_app_or in H5 as [H5|[H5|[]]]; auto. }
                  { intros Hd. destruct (H2 Hd) as [H3|[H3|H3]]; auto. right. left. apply in_or_app; auto. }
              + intros x Hx. destruct (Nat.eq_dec n x) as [<-|Hne].
                * exists s_, t_, p_. split; auto. apply nth_error_upd_eq. lia.
                * apply in_app_or in Hx as [Hx|[Hx|[]]]; [|congruence].
                  destruct (w_wet _ _ HI x Hx) as (s & t & p & H1 & H2). exists s, t, p. split; auto.
                  rewrite nth_error_upd_neq by assumption. exact H1.
              + intros x b' Hx Hb'. destruct (Nat.eq_dec n x) as [<-|Hne].
                * rewrite nth_error_upd_eq in Hb' by lia. injection Hb' as <-.
                  apply (proj2 Hokb b n); auto. apply (w_okb _ _ HI m b); auto.
                * apply in_app_or in Hx as [Hx|[Hx|[]]]; [|congruence].
                  rewrite nth_error_upd_neq in Hb' by assumption. apply (w_okb _ _ HI x b'); auto.
              + intros x Hx. assert (n <> x).
                { intros <-. destruct Hx as [Hx|Hx]; auto. apply Hx. apply in_or_app; right; left; reflexivity. }
                rewrite nth_error_upd_neq by assumption. apply (w_keep _ _ HI). destruct Hx as [Hx|Hx]; auto.
                right. intros H'. apply Hx. apply in_or_app; auto.
              + intros i x Hx. apply snoc_nth in Hx as [Hx|[Hi ->]].
                * destruct (w_par _ _ HI i x Hx) as (j & m' & H1 & H2 & H3 & H4).
                  exists j, m'. split; auto. split.
                  { rewrite nth_error_app1; auto. eapply nth_error_lt; eauto. }
                  split; auto. destruct H4 as [H4|(b' & r' & H4 & H5 & H6)]; auto.
                  right. exists b', r'. cbn [wstp] in *.
                  rewrite !nth_error_upd_neq; auto; intros <-; apply Hnin; eapply nth_error_In; eauto.
                * exists hpos, m. assert (hpos < length Q0) by (eapply nth_error_lt; eauto).
                  assert (length Q = length Q0 + length Q1) by (unfold Q; apply app_length).
                  repeat split; auto; [lia| |].
                  { unfold Q. rewrite <- app_assoc, nth_error_app1; auto. }
                  right. exists b, (s_, t_, p_). rewrite nth_error_upd_neq by auto.
                  rewrite nth_error_upd_eq by lia. auto.
              + rewrite nth_error_app1; [apply (w_root _ _ HI)|]. pose proof (w_root _ _ HI) as Hrt.
                eapply nth_error_lt; eauto.
              + apply (w_rootwet _ _ HI).
              + destruct (w_new _ _ HI) as (D & H1 & H2 & H3). exists (n :: D). split.
                { constructor; auto. rewrite H2. tauto. }
                split.
                * intros x. simpl. rewrite H2. split.
                  { intros [<-|[H4 H5]]; split; auto; apply in_or_app; auto. right; left; reflexivity. }
                  { intros [H4 H5]. apply in_app_or in H4 as [H4|[H4|[]]]; auto. }
                * simpl. cbn [wnew] in H3. congruence.
            - cbn [wstp]. intros x Hx. rewrite nth_error_upd_neq; [apply Hag; auto|].
              intros <-. apply Hnin. apply in_or_app; auto.
            - cbn [wstp]. intros x Hx. apply in_app_or in Hx as [Hx|[<-|[]]].
              + eapply settled_mono; [| | |apply Hdone; auto]; auto.
                * intros y Hy. apply in_or_app; auto.
                * intros y Hy. rewrite nth_error_upd_neq; [reflexivity|]. intros <-. auto.
              + left. apply in_or_app; right; left; reflexivity. }
          { cbn [okor]. exists Q1. split; [exact HI|]. split; [exact Hag|].
            cbn [wstp]. intros x Hx. apply in_app_or in Hx as [Hx|[<-|[]]]; [apply Hdone; auto|].
            right. split; auto. exists b, (s_, t_, p_). split; auto. split; auto. rewrite <- Hok. discriminate. }
        * cbn [okor]. assert (Hb : wet_at stp m) by (apply (w_wet _ _ HI); auto).
          destruct Hb as (s & t & p & H1 & H2). assert (b = (s, t, p)) by congruence. subst b.
          exists s, t, p, n. split; [assumption|]. split; [|assumption]. apply (w_okb _ _ HI m); auto.
      + (* neither *)
        cbn [okor]. exists Q1. split; [exact HI|]. split; [exact Hag|].
        cbn [wstp]. intros x Hx. apply in_app_or in Hx as [Hx|[<-|[]]]; [apply Hdone; auto|].
        destruct (in_dec Nat.eq_dec n (Q0 ++ Q1)) as [Hin|Hnin]; [left; assumption|].
        destruct (w_dry _ _ HI n Hn) as [_ H2]. cbn [wdry] in H2.
        destruct H2 as [H3|[H3|H3]].
        * unfold mask. congruence.
        * exfalso. assert (H4 : mask good n) by (apply (w_good _ _ HI); auto). unfold mask in H4. congruence.
        * contradiction.
        * right. split.
          { intros H4. assert (H5 : mask good n) by (apply (w_good _ _ HI); auto). unfold mask in H5. congruence. }
          destruct (get_lt stp m) as (b & Eb & Nb); [lia|].
          destruct (H3 b) as (s & t & Hs). exists b, (s, t, nan). split; auto. split; auto.
          intros (ml & _ & H4 & H5). congruence.
  Qed.

  Definition wouter (h : nat) (Q : list nat) (stp : list (F * F * F)) : Prop :=
    h <= length Q /\ forall i m n, i < h -> nth_error Q i = Some m -> E m n -> settled Q stp m n.

  Definition wout (x : wstate * nat + wstate) : Prop :=
    match x with
    | inl (st, h) => exists Q, winv Q st /\ wouter h Q (wstp st)
    | inr st => exists Q, winv Q st /\ wouter (length Q) Q (wstp st)
    end.

  Lemma wet_body_step Q h st :
    winv Q st -> wouter h Q (wstp st) ->
    okor (fun x => wout x /\ match x with inl (_, h') => h' = S h /\ h < wqt st | inr _ => True end) blame
         (wet_body eos ppc_fn fuel casts tol_p p_ml indptr indices (st, h)).
  Proof.
    intros HI [Hh Hcl0]. unfold wet_body.
    destruct (Nat.ltb_spec h (wqt st)) as [Hlt|Hge].
    - rewrite (w_qt _ _ HI) in Hlt.
      destruct (nth_error Q h) as [m|] eqn:Em; [|apply nth_error_None in Em; lia].
      assert (Hqm : get (wqu st) h = Ok m).
      { apply get_ok. rewrite <- (nth_error_firstn (wqu st) (wqt st) h) by (rewrite (w_qt _ _ HI); assumption).
        rewrite (w_q _ _ HI). assumption. }
      rewrite Hqm. cbn [bind].
      assert (HmQ : In m Q) by (eapply nth_error_In; eauto).
      assert (Hm : m < N) by (eapply w_lt; eauto).
      destruct (neighbours_spec N indptr indices Hcsr m Hm) as (ns & En & Hns). rewrite En. cbn [bind].
      eapply okor_bind.
      + apply (for_each_okor (winner m Q (wstp st))).
        * exists []. rewrite app_nil_r. split; [assumption|]. split; [intros ? ?; reflexivity|]. intros n [].
        * intros pre x post s El Hp. eapply wet_visit_inner; eauto. apply Hns. rewrite El.
          apply in_or_app; right; left; reflexivity.
      + intros st' _ (Q1 & HI' & Hag & Hdone). cbn [okor]. split; [|split; [reflexivity|rewrite (w_qt _ _ HI); assumption]].
        exists (Q ++ Q1). split; [assumption|]. split; [rewrite app_length; lia|].
        intros i m' n Hi Hnth Hadj. rewrite nth_error_app1 in Hnth by lia.
        destruct (Nat.eq_dec i h) as [->|Hne].
        * rewrite Em in Hnth. injection Hnth as <-. apply Hdone. apply Hns. assumption.
        * apply (settled_mono Q _ (wstp st)); auto.
          { eapply nth_error_In; eauto. }
          { intros y Hy. apply in_or_app; auto. }
          { apply (Hcl0 i); auto. lia. }
    - cbn [okor]. split; auto. exists Q. split; auto. rewrite (w_qt _ _ HI) in Hge.
      replace (length Q) with h by lia. split; auto.
  Qed.

  Lemma wet_loop Q h st : winv Q st -> wouter h Q (wstp st) ->
    forall f, N - h < f ->
    okor (fun st' => exists Q', winv Q' st' /\ wouter (length Q') Q' (wstp st')) blame
      (loop f (wet_body eos ppc_fn fuel casts tol_p p_ml indptr indices) (st, h)).
  Proof.
    intros HI HO f. revert Q h st HI HO. induction f as [|f IH]; intros Q h st HI HO Hf; [lia|].
    cbn [loop]. eapply okor_bind; [apply (wet_body_step Q h st HI HO)|].
    intros [[st' h']|st'] _ Hx.
    - destruct Hx as [(Q' & HI' & HO') [-> Hlt]]. apply (IH Q'); auto.
      assert (wqt st <= N).
      { rewrite (w_qt _ _ HI). eapply nodup_bound; eauto using w_nd, w_lt. }
      lia.
    - destruct Hx as [Hx _]. exact Hx.
  Qed.

  Lemma bfs_wet_correct junk : root < N -> N <= length junk -> forall lf, N < lf ->
    okor (fun '(qu, new, stp) =>
         NoDup qu /\ length stp = N
         /\ (wet0 root -> nth_error qu 0 = Some root)
         /\ (~ wet0 root -> qu = [])
         (* wet nodes: kept, and found when reachable *)
         /\ (forall m n, In m qu -> E m n -> wet0 n -> In n qu)
         /\ (forall n, wet0 n \/ ~ In n qu -> nth_error stp n = nth_error stp0 n)
         (* every other node in the queue comes from an earlier one *)
         /\ (forall i n, nth_error qu (S i) = Some n ->
               exists j m, j <= i /\ nth_error qu j = Some m /\ E m n
                 /\ (wet0 n \/ exists b r, nth_error stp m = Some b /\ nth_error stp n = Some r
                                      /\ ntp_to b n (Ok r) /\ accepted n r))
         (* maximality *)
         /\ (forall m n, In m qu -> E m n -> ~ In n qu ->
               exists b r, nth_error stp m = Some b /\ ntp_to b n (Ok r) /\ ~ accepted n r)
         (* the count *)
         /\ (exists D, NoDup D /\ (forall n, In n D <-> In n qu /\ ~ wet0 n) /\ new = length D))
      blame
      (bfs_conncomp1_wet eos ppc_fn fuel casts tol_p p_ml lf junk indptr indices root stp0).
  Proof.
    intros Hr Hj lf Hlf. unfold bfs_conncomp1_wet.
    set (good := map (fun x => isfinite (snd x)) stp0).
    assert (Hg : forall n, mask good n <-> wet0 n).
    { intros n. unfold mask, good, wet_at. rewrite nth_error_map.
      destruct (nth_error stp0 n) as [[[s t] p]|]; simpl.
      - split.
        + intros H. injection H as H. exists s, t, p. auto.
        + intros (s' & t' & p' & H1 & H2). congruence.
      - split; [discriminate|]. intros (s' & t' & p' & H1 & H2). discriminate. }
    assert (Hlgood : length good = N) by (unfold good; rewrite map_length; assumption).
    destruct (get_lt good root) as (g & Eg & Ng); [lia|]. rewrite Eg. cbn [bind].
    destruct g.
    - assert (Hw : wet0 root) by (apply Hg; exact Ng).
      assert (Hlq : length (firstn (length casts) junk) = N) by (rewrite firstn_length; lia).
      rewrite !set_ok by lia. cbn [bind].
      eapply okor_bind.
      + apply (wet_loop [root]); [| |lia].
        * constructor; cbn [wqu wqt wgood wdry wnew wstp]; rewrite ?length_upd, ?map_length; auto.
          { destruct (firstn (length casts) junk); simpl in *; [lia|reflexivity]. }
          { repeat constructor. intros []. }
          { intros n [<-|[]]. assumption. }
          { intros n. unfold mask. destruct (Nat.eq_dec root n) as [<-|Hne].
            - rewrite nth_error_upd_eq by lia. split; [discriminate|]. simpl. tauto.
            - rewrite nth_error_upd_neq by assumption. fold (mask good n). rewrite Hg. simpl. tauto. }
          { intros n Hn. unfold mask. rewrite nth_error_map.
            destruct (get_lt good n) as (g & _ & Ngn); [lia|]. rewrite Ngn. simpl.
            destruct g; simpl; split; intros H; try discriminate; try congruence.
            - left. apply Hg. exact Ngn.
            - split.
              + intros H'. apply Hg in H'. unfold mask in H'. congruence.
              + intros [<-|[]]. apply Hg in Hw. unfold mask in Hw. congruence. }
          { intros n [<-|[]]. assumption. }
          { intros n b [<-|[]] Hb. destruct Hw as (s & t & p & H1 & H2). assert (b = (s, t, p)) by congruence.
            subst b. apply (proj1 Hokb root); auto. }
          { intros [|i] n H; discriminate. }
          { exists []. split; [constructor|]. split; [|reflexivity].
            intros n. simpl. split; [tauto|]. intros [[<-|[]] H]. auto. }
        * split; [simpl; lia|]. intros; lia.
      + intros st _ (Q & HI & HO). cbn [okor]. rewrite (w_q _ _ HI).
        assert (Hset : forall m n, In m Q -> E m n -> settled Q (wstp st) m n).
        { intros m n Hm Hadj. destruct HO as [_ HO]. apply In_nth_error in Hm as [i Hi].
          apply (HO i); auto. eapply nth_error_lt; eauto. }
        split; [eapply w_nd; eauto|]. split; [eapply w_ls; eauto|].
        split; [intros _; eapply w_root; eauto|]. split; [contradiction|].
        split; [|split; [|split; [|split]]].
        * intros m n Hm Hadj Hwn. destruct (Hset m n Hm Hadj) as [H|[H _]]; auto. contradiction.
        * apply (w_keep _ _ HI).
        * apply (w_par _ _ HI).
        * intros m n Hm Hadj Hnin. destruct (Hset m n Hm Hadj) as [H|(_ & b & r & H)]; [contradiction|].
          exists b, r. exact H.
        * apply (w_new _ _ HI).
    - cbn [okor]. assert (Hw : ~ wet0 root).
      { rewrite <- Hg. unfold mask. congruence. }
      split; [constructor|]. split; [assumption|]. split; [contradiction|]. split; [reflexivity|].
      split; [intros m n []|]. split; [reflexivity|]. split; [intros i n H; discriminate|].
      split; [intros m n []|].
      exists []. split; [constructor|]. split; [|reflexivity]. intros n. simpl. tauto.
  Qed.
End Wet.
