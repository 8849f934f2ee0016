(** * build_grid from matrices, graph_binary_fcn, edges_to_graph: proofs *)
From Coq Require Import ZArith Bool List Lia FinFun.
From Verif Require Import Num SF Res Arr ArrLemmas Nd S_graph S_labels S_lib M_graph.
Import ListNotations.

Lemma in_rowmajor n i j : In (i, j) (rowmajor n) <-> i < n /\ j < n.
Proof.
  unfold rowmajor. rewrite in_flat_map. split.
  - intros (x & Hx & H). apply in_map_iff in H as (y & E & Hy). injection E as -> ->.
    apply in_seq in Hx. apply in_seq in Hy. lia.
  - intros [Hi Hj]. exists i. split; [apply in_seq; lia|]. apply in_map_iff. exists j. split; [reflexivity|apply in_seq; lia].
Qed.

Lemma in_colmajor n i j : In (i, j) (colmajor n) <-> i < n /\ j < n.
Proof.
  unfold colmajor. rewrite in_flat_map. split.
  - intros (x & Hx & H). apply in_map_iff in H as (y & E & Hy). injection E as -> ->.
    apply in_seq in Hx. apply in_seq in Hy. lia.
  - intros [Hi Hj]. exists j. split; [apply in_seq; lia|]. apply in_map_iff. exists i. split; [reflexivity|apply in_seq; lia].
Qed.

Lemma NoDup_flat {A B} (f : A -> list B) (g : B -> A) l :
  NoDup l -> (forall x, In x l -> NoDup (f x)) -> (forall x y, In y (f x) -> g y = x) -> NoDup (flat_map f l).
Proof.
  induction l as [|x l IH]; intros Hl Hf Hg; simpl; [constructor|].
  inversion Hl as [|? ? Hx Hl']; subst.
  assert (H1 : NoDup (f x)) by (apply Hf; left; reflexivity).
  assert (H2 : NoDup (flat_map f l)) by (apply IH; auto; intros; apply Hf; right; assumption).
  assert (H3 : forall y, In y (f x) -> ~ In y (flat_map f l)).
  { intros y Hy Hin. apply in_flat_map in Hin as (z & Hz & Hyz). apply Hg in Hy. apply Hg in Hyz. congruence. }
  clear - H1 H2 H3. induction (f x) as [|y m IH]; simpl; [assumption|]. inversion H1; subst. constructor.
  - rewrite in_app_iff. intros [H|H]; [contradiction|]. apply (H3 y); [left; reflexivity|assumption].
  - apply IH; [assumption|]. intros z Hz. apply H3. right. assumption.
Qed.

Lemma nodup_rowmajor n : NoDup (rowmajor n).
Proof.
  apply (NoDup_flat _ fst).
  - apply seq_NoDup.
  - intros x _. apply Injective_map_NoDup; [intros a b E; injection E; auto|apply seq_NoDup].
  - intros x y Hy. apply in_map_iff in Hy as (z & <- & _). reflexivity.
Qed.

Lemma nodup_colmajor n : NoDup (colmajor n).
Proof.
  apply (NoDup_flat _ snd).
  - apply seq_NoDup.
  - intros x _. apply Injective_map_NoDup; [intros a b E; injection E; auto|apply seq_NoDup].
  - intros x y Hy. apply in_map_iff in Hy as (z & <- & _). reflexivity.
Qed.

Section Find.
  Context {F : Type} {Nm : Num F}.
  Notation matrix := (nat -> nat -> F).

  Lemma map_fst_find ord (A : matrix) :
    map fst (find ord A) = filter (fun ij => negb (eqb (A (fst ij) (snd ij)) zero)) ord.
  Proof. unfold find. rewrite map_map. simpl. rewrite map_id. reflexivity. Qed.

  Lemma in_find ord (A : matrix) i j : In (i, j) (map fst (find ord A)) <-> In (i, j) ord /\ nonzero A i j.
  Proof. rewrite map_fst_find, filter_In. simpl. rewrite negb_true_iff. reflexivity. Qed.

  Lemma find_values ord (A : matrix) : values_of A (map fst (find ord A)) (map snd (find ord A)).
  Proof.
    split; [rewrite !map_length; reflexivity|]. intros k a b H. unfold find in *. rewrite map_map in *. simpl in *.
    rewrite map_id in H. rewrite nth_error_map. rewrite H. reflexivity.
  Qed.

  (** the pairs found in the given order agree when the matrices have the same structure *)
  Lemma find_same ord (A B : matrix) :
    (forall i j, In (i, j) ord -> eqb (A i j) zero = eqb (B i j) zero) ->
    map fst (find ord A) = map fst (find ord B).
  Proof.
    intros H. rewrite !map_fst_find. apply filter_ext_in. intros [i j] Hij. simpl. rewrite (H i j Hij). reflexivity.
  Qed.

  Lemma values_ext (A B : matrix) e v : (forall a b, In (a, b) e -> A a b = B a b) -> values_of A e v -> values_of B e v.
  Proof.
    intros H [H1 H2]. split; [assumption|]. intros k a b Hk. rewrite <- H; [apply H2; assumption|]. eapply nth_error_In; eauto.
  Qed.

  Lemma issymmetric_true n (A : matrix) :
    (forall i j, i < n -> j < n -> eqb (A i j) (A j i) = true) -> issymmetric n A = true.
  Proof.
    intros H. apply forallb_forall. intros [i j] Hin. apply in_rowmajor in Hin as [Hi Hj]. simpl. auto.
  Qed.
  Lemma issymmetric_inv n (A : matrix) : issymmetric n A = true ->
    forall i j, i < n -> j < n -> eqb (A i j) (A j i) = true.
  Proof.
    intros H i j Hi Hj. unfold issymmetric in H. rewrite forallb_forall in H.
    apply (H (i, j)). apply in_rowmajor. auto.
  Qed.
  Lemma sym_structure_true n (A : matrix) :
    (forall i j, i < n -> j < n -> eqb (A i j) zero = eqb (A j i) zero) -> sym_structure n A = true.
  Proof.
    intros H. apply forallb_forall. intros [i j] Hin. apply in_rowmajor in Hin as [Hi Hj]. simpl.
    rewrite (H i j Hi Hj). apply eqb_reflx.
  Qed.
  Lemma sym_structure_inv n (A : matrix) : sym_structure n A = true ->
    forall i j, i < n -> j < n -> eqb (A i j) zero = eqb (A j i) zero.
  Proof.
    intros H i j Hi Hj. unfold sym_structure in H. rewrite forallb_forall in H.
    specialize (H (i, j)). simpl in H. apply eqb_prop. apply H. apply in_rowmajor. auto.
  Qed.

  Lemma same_pairs_refl l : same_pairs l l = true.
  Proof.
    unfold same_pairs. rewrite Nat.eqb_refl. simpl. induction l as [|[a b] l IH]; simpl; [reflexivity|].
    rewrite !Nat.eqb_refl. assumption.
  Qed.

  (** a duplicate-free list of pairs covering a relation once *)
  Lemma once_intro (adjacent : nat -> nat -> Prop) N e :
    NoDup e ->
    (forall a b, In (a, b) e -> a < N /\ b < N /\ adjacent a b) ->
    (forall m n, m < N -> n < N -> adjacent m n -> In (m, n) e \/ In (n, m) e) ->
    (forall m n, In (m, n) e -> In (n, m) e -> m = n) ->
    each_pair_once adjacent N e.
  Proof.
    intros Hnd H1 H2 H3. split.
    - intros k a b Hk. apply H1. eapply nth_error_In; eauto.
    - intros m n Hm Hn Ha.
      assert (Huniq : forall k k' x, nth_error e k = Some x -> nth_error e k' = Some x -> k' = k).
      { intros k k' x Hk Hk'. rewrite NoDup_nth_error in Hnd. symmetry. apply Hnd; [eapply nth_error_lt; eauto|congruence]. }
      destruct (H2 m n Hm Hn Ha) as [Hin|Hin]; apply In_nth_error in Hin as Hk; destruct Hk as [k Hk].
      + exists k, (m, n). split; [assumption|]. split; [left; reflexivity|]. intros k' e' Hk' [->| ->].
        * eapply Huniq; eauto.
        * assert (m = n) by (apply H3; auto; eapply nth_error_In; eauto). subst. eapply Huniq; eauto.
      + exists k, (n, m). split; [assumption|]. split; [right; reflexivity|]. intros k' e' Hk' [->| ->].
        * assert (n = m) by (apply H3; auto; eapply nth_error_In; eauto). subst. eapply Huniq; eauto.
        * eapply Huniq; eauto.
  Qed.

  Variable n : nat.
  Hypothesis zero_refl : eqb (@zero F Nm) zero = true.

  Lemma nonzero_triu (A : matrix) i j : nonzero (triu A) i j <-> i <= j /\ nonzero A i j.
  Proof.
    unfold nonzero, triu. destruct (Nat.leb_spec i j).
    - tauto.
    - rewrite zero_refl. split; [discriminate|lia].
  Qed.



  Lemma find_triu_once (A : matrix) : sym_str n A ->
    each_pair_once (adjacent A) n (map fst (find (colmajor n) (triu A))).
  Proof.
    intros Hs. apply once_intro.
    - rewrite map_fst_find. apply NoDup_filter, nodup_colmajor.
    - intros a b H. apply in_find in H as [H1 H2]. apply in_colmajor in H1. apply nonzero_triu in H2. unfold adjacent. tauto.
    - intros a b Ha Hb Hadj. rewrite !in_find, !in_colmajor, !nonzero_triu.
      assert (nonzero A a b /\ nonzero A b a) by (unfold adjacent in Hadj; split; destruct Hadj; auto).
      destruct (Nat.le_ge_cases a b); [left|right]; tauto.
    - intros a b. rewrite !in_find, !nonzero_triu. lia.
  Qed.

  Lemma find_row_once (A : matrix) : one_sided n A ->
    each_pair_once (adjacent A) n (map fst (find (rowmajor n) A)).
  Proof.
    intros Hs. apply once_intro.
    - rewrite map_fst_find. apply NoDup_filter, nodup_rowmajor.
    - intros a b H. apply in_find in H as [H1 H2]. apply in_rowmajor in H1. unfold adjacent. tauto.
    - intros a b Ha Hb Hadj. rewrite !in_find, !in_rowmajor. destruct Hadj; [left|right]; tauto.
    - intros a b. rewrite !in_find, in_rowmajor. intros [H1 H2] [_ H3]. destruct (Nat.eq_dec a b); [assumption|].
      exfalso. apply (Hs a b); tauto.
  Qed.

  Lemma triu_values (A : matrix) : values_of A (map fst (find (colmajor n) (triu A))) (map snd (find (colmajor n) (triu A))).
  Proof.
    eapply values_ext; [|apply find_values]. intros a b H. apply in_find in H as [_ H]. apply nonzero_triu in H as [H _].
    unfold triu. apply Nat.leb_le in H. rewrite H. reflexivity.
  Qed.

  (** a single matrix *)
  Lemma build_grid_matrix_once (A : matrix) : sym_str n A \/ one_sided n A ->
    let '(e, d, p) := build_grid_matrix n A in
    each_pair_once (adjacent A) n e /\ d = repeat one (length e) /\ p = repeat one (length e).
  Proof.
    intros H. unfold build_grid_matrix. cbv zeta. split; [|auto].
    unfold find_triu_if_sym_structure, find_triu_if. destruct (sym_structure n A) eqn:E.
    - apply find_triu_once. intros i j Hi Hj H1. unfold nonzero in *.
      rewrite <- (sym_structure_inv n A E); auto.
    - destruct H as [H|H].
      + rewrite sym_structure_true in E; [discriminate|]. intros i j Hi Hj.
        destruct (eqb (A i j) zero) eqn:E1, (eqb (A j i) zero) eqn:E2; try reflexivity; exfalso.
        * apply (H j i Hj Hi) in E2. unfold nonzero in E2. congruence.
        * apply (H i j Hi Hj) in E1. unfold nonzero in E1. congruence.
      + apply find_row_once. assumption.
  Qed.


  Lemma build_grid_dict_sym (D P : matrix) :
    symmetric n D -> symmetric n P ->
    (forall i j, i < n -> j < n -> (nonzero D i j <-> nonzero P i j)) ->
    exists e d p, build_grid_dict n D P = Ok (e, d, p)
      /\ each_pair_once (adjacent D) n e /\ values_of D e d /\ values_of P e p.
  Proof.
    intros HD HP Hsame. unfold build_grid_dict, find_triu_if_sym.
    assert (ED : issymmetric n D = true).
    { apply issymmetric_true. intros i j Hi Hj. destruct (HD i j Hi Hj) as [<- H]. assumption. }
    assert (EP : issymmetric n P = true).
    { apply issymmetric_true. intros i j Hi Hj. destruct (HP i j Hi Hj) as [<- H]. assumption. }
    rewrite ED, EP. unfold find_triu_if.
    assert (E : map fst (find (colmajor n) (triu P)) = map fst (find (colmajor n) (triu D))).
    { apply find_same. intros i j H. apply in_colmajor in H as [Hi Hj]. unfold triu. destruct (Nat.leb i j); [|reflexivity].
      specialize (Hsame i j Hi Hj). unfold nonzero in Hsame.
      destruct (eqb (D i j) zero), (eqb (P i j) zero); intuition congruence. }
    rewrite E, same_pairs_refl. eexists _, _, _. split; [reflexivity|]. split; [|split].
    - apply find_triu_once. intros i j Hi Hj H. unfold nonzero in *. destruct (HD i j Hi Hj) as [<- _]. assumption.
    - apply triu_values.
    - rewrite <- E. apply triu_values.
  Qed.


  (** matrices that store each pair in one direction only *)
  Lemma one_sided_not_symmetric (A : matrix) :
    (forall x y : F, eqb x y = true -> eqb y zero = true -> eqb x zero = true) ->
    one_sided n A -> (exists i j, i < n /\ j < n /\ i <> j /\ nonzero A i j) -> issymmetric n A = false.
  Proof.
    intros Heq H1 (i & j & Hi & Hj & Hne & Hnz). destruct (issymmetric n A) eqn:E; [|reflexivity]. exfalso.
    pose proof (issymmetric_inv n A E i j Hi Hj) as He.
    assert (Hz : eqb (A j i) zero = true).
    { destruct (eqb (A j i) zero) eqn:Ez; [reflexivity|]. exfalso. apply (H1 i j Hi Hj Hne Hnz). exact Ez. }
    pose proof (Heq _ _ He Hz) as Hc. unfold nonzero in Hnz. congruence.
  Qed.

  Lemma build_grid_dict_one_sided (D P : matrix) :
    (forall x y : F, eqb x y = true -> eqb y zero = true -> eqb x zero = true) ->
    one_sided n D -> (exists i j, i < n /\ j < n /\ i <> j /\ nonzero D i j) ->
    (forall i j, i < n -> j < n -> (nonzero D i j <-> nonzero P i j)) ->
    exists e d p, build_grid_dict n D P = Ok (e, d, p)
      /\ each_pair_once (adjacent D) n e /\ values_of D e d /\ values_of P e p.
  Proof.
    intros Heq HD Hex Hsame. unfold build_grid_dict, find_triu_if_sym.
    rewrite (one_sided_not_symmetric D Heq HD Hex).
    rewrite (one_sided_not_symmetric P Heq).
    2:{ intros i j Hi Hj Hne H1 H2. apply (HD i j Hi Hj Hne); apply Hsame; assumption. }
    2:{ destruct Hex as (i & j & Hi & Hj & Hne & H1). exists i, j. repeat (split; [assumption|]). apply Hsame; assumption. }
    unfold find_triu_if.
    assert (E : map fst (find (rowmajor n) P) = map fst (find (rowmajor n) D)).
    { apply find_same. intros i j H. apply in_rowmajor in H as [Hi Hj].
      specialize (Hsame i j Hi Hj). unfold nonzero in Hsame.
      destruct (eqb (D i j) zero), (eqb (P i j) zero); intuition congruence. }
    rewrite E, same_pairs_refl. eexists _, _, _. split; [reflexivity|]. split; [|split].
    - apply find_row_once. assumption.
    - apply find_values.
    - rewrite <- E. apply find_values.
  Qed.
End Find.

Section Binary.
  Context {F : Type} {Nm : Num F}.

  Lemma graph_binary_fcn_ok edges (v : list F) f : in_range edges (length v) ->
    exists ev, graph_binary_fcn edges v f = Ok ev /\ length ev = length edges
      /\ forall k a b x y, nth_error edges k = Some (a, b) -> nth_error v a = Some x -> nth_error v b = Some y ->
           nth_error ev k = Some (f x y).
  Proof.
    unfold graph_binary_fcn. induction edges as [|[a b] r IH]; intros Hr.
    - exists []. split; [reflexivity|]. split; [reflexivity|]. intros [|k] ? ? ? ? H; discriminate.
    - destruct IH as (ev & E & L & H); [intros x y Hin; apply Hr; right; assumption|].
      destruct (Hr a b (or_introl eq_refl)) as [Ha Hb].
      destruct (nth_error v a) as [x|] eqn:Ex; [|apply nth_error_None in Ex; lia].
      destruct (nth_error v b) as [y|] eqn:Ey; [|apply nth_error_None in Ey; lia].
      cbn [mapM fst snd]. rewrite (get_ok _ _ _ Ex). cbn [bind]. rewrite (get_ok _ _ _ Ey). cbn [bind]. rewrite E. cbn [bind].
      exists (f x y :: ev). split; [reflexivity|]. split; [simpl; lia|]. intros [|k] a' b' x' y' Hk Hx Hy.
      + simpl in Hk. injection Hk as <- <-. simpl. congruence.
      + simpl in *. eapply H; eauto.
  Qed.

  Lemma get_wrap_ok (v : list F) i n x : label_of (length v) i n -> nth_error v n = Some x -> get_wrap v i = Ok x.
  Proof.
    intros [Hn [-> | ->]] Hx; unfold get_wrap.
    - destruct (Z.ltb_spec (Z.of_nat n) 0); [lia|]. rewrite Nat2Z.id. exact (get_ok _ _ _ Hx).
    - destruct (Z.ltb_spec (Z.of_nat n - Z.of_nat (length v)) 0); [|lia].
      replace (Z.of_nat n - Z.of_nat (length v) + Z.of_nat (length v))%Z with (Z.of_nat n) by lia.
      destruct (Z.ltb_spec (Z.of_nat n) 0); [lia|]. rewrite Nat2Z.id. exact (get_ok _ _ _ Hx).
  Qed.
  Lemma graph_binary_fcn_Z_ok edges (v : list F) f : (forall i j, In (i, j) edges -> (exists a, label_of (length v) i a) /\ exists b, label_of (length v) j b) ->
    exists ev, graph_binary_fcn_Z edges v f = Ok ev /\ length ev = length edges
      /\ forall k i j a b x y, nth_error edges k = Some (i, j) -> label_of (length v) i a -> label_of (length v) j b -> nth_error v a = Some x -> nth_error v b = Some y ->
           nth_error ev k = Some (f x y).
  Proof.
    unfold graph_binary_fcn_Z. induction edges as [|[i j] r IH]; intros Hr.
    - exists []. split; [reflexivity|]. split; [reflexivity|]. intros [|k] ? ? ? ? ? ? H; discriminate.
    - destruct IH as (ev & E & L & H); [intros x y Hin; apply Hr; right; assumption|].
      destruct (Hr i j (or_introl eq_refl)) as [[a Ha] [b Hb]].
      destruct (nth_error v a) as [x|] eqn:Ex; [|apply nth_error_None in Ex; destruct Ha; lia].
      destruct (nth_error v b) as [y|] eqn:Ey; [|apply nth_error_None in Ey; destruct Hb; lia].
      cbn [mapM fst snd]. pose proof (get_wrap_ok v i a x Ha Ex) as Gx. pose proof (get_wrap_ok v j b y Hb Ey) as Gy.
      rewrite Gx. cbn [bind]. rewrite Gy. cbn [bind]. rewrite E. cbn [bind].
      exists (f x y :: ev). split; [reflexivity|]. split; [simpl; lia|]. intros [|k] i' j' a' b' x' y' Hk La Lb Hx Hy.
      + cbn [nth_error] in *. injection Hk as <- <-. pose proof (get_wrap_ok v i a' x' La Hx). pose proof (get_wrap_ok v j b' y' Lb Hy). congruence.
      + cbn [nth_error] in *. eapply H; eauto.
  Qed.
End Binary.

(** the laws used above hold in binary64 *)
Lemma f64_zero_refl : eqb (@zero f64 _) zero = true.
Proof. reflexivity. Qed.
Lemma f64_eq_zero (x y : f64) : eqb x y = true -> eqb y zero = true -> eqb x zero = true.
Proof.
  change (@zero f64 _) with (SpecFloat.S754_zero false). unfold eqb; simpl. unfold SpecFloat.SFeqb.
  destruct y as [sy|sy| |sy my ey], x as [sx|sx| |sx mx ex]; simpl; try discriminate; try reflexivity;
    try (destruct sx; discriminate); try (destruct sy; discriminate).
Qed.
