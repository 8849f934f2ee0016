(** * The matrix problems of omega surfaces: the Poisson and the gradient problem *)
From Coq Require Import ZArith Bool List Lia Arith Reals Lra.
From Verif Require Import Num XR XRlemmas Res Arr ArrLemmas NdLemmas M_graph M_lib M_ntp M_matsolve
  S_graph S_lib S_ntp S_matsolve P_lib P_div P_ntp P_ntp2 P_linalg P_laplacian P_matsolve.
Import ListNotations.
Local Open Scope R_scope.

(** sums of listed entries *)
Lemma agg_items {B} (key : B -> nat) (val : B -> R) l N : (forall x, In x l -> (key x < N)%nat) ->
  aggsum (map (fun x => Fin (val x)) l) (map (fun x => Z.of_nat (key x)) l) N
  = Ok (map (fun j => Fin (Rsum (map (fun x => (if Nat.eqb (key x) j then 1 else 0) * val x) l))) (seq 0 N)).
Proof.
  intros H. destruct (aggsum_ok (map (fun x => Fin (val x)) l) (map (fun x => Z.of_nat (key x)) l) N) as (b & E & L & Hb).
  - rewrite !map_length. lia.
  - intros k Hk. apply in_map_iff in Hk as (x & <- & Hx). specialize (H x Hx). lia.
  - rewrite E. f_equal. apply nth_error_ext. intros j. destruct (Nat.lt_ge_cases j N) as [Hj|Hj].
    + rewrite (Hb j Hj), nth_error_map, (nth_error_nth' _ 0%nat) by (rewrite seq_length; assumption). rewrite seq_nth by assumption.
      cbn [option_map Nat.add]. f_equal. change (fold_left add (group (map (fun x => Z.of_nat (key x)) l) (map (fun x => Fin (val x)) l) j) zero)
        with (fsum (group (map (fun y => Z.of_nat (key y)) l) (map (fun y => Fin (val y)) l) j)).
      assert (G : group (map (fun x => Z.of_nat (key x)) l) (map (fun x => Fin (val x)) l) j = map Fin (map val (filter (fun x => Nat.eqb (key x) j) l))).
      { unfold group. clear. induction l as [|x l IH]; [reflexivity|]. cbn [map combine filter fst].
        destruct (Nat.eqb_spec (key x) j) as [->|Hn].
        - rewrite Z.eqb_refl. cbn [map snd]. rewrite IH. reflexivity.
        - destruct (Z.eqb_spec (Z.of_nat (key x)) (Z.of_nat j)); [lia|]. exact IH. }
      rewrite G, fsum_fin, Rsum_filter. f_equal. apply Rsum_ext. intros x _. destruct (Nat.eqb (key x) j); ring.
    + rewrite (proj2 (nth_error_None b j)) by lia. symmetry. apply nth_error_None. rewrite map_length, seq_length. lia.
Qed.

Lemma coo_items {B} (row col : B -> nat) (val : B -> R) l i j :
  coo_entry (map (fun x => (row x, col x)) l) (map (fun x => Fin (val x)) l) i j
  = Fin (Rsum (map (fun x => if Nat.eqb (row x) i && Nat.eqb (col x) j then val x else 0) l)).
Proof.
  unfold coo_entry. match goal with |- fold_left add ?X zero = _ => change (fold_left add X zero) with (fsum X) end.
  assert (G : map snd (filter (fun ew : nat * nat * xr => Nat.eqb (fst (fst ew)) i && Nat.eqb (snd (fst ew)) j)
      (combine (map (fun x => (row x, col x)) l) (map (fun x => Fin (val x)) l)))
    = map Fin (map val (filter (fun x => Nat.eqb (row x) i && Nat.eqb (col x) j) l))).
  { induction l as [|x l IH]; [reflexivity|]. cbn [map combine filter fst snd].
    destruct (Nat.eqb (row x) i && Nat.eqb (col x) j); cbn [map snd]; rewrite IH; reflexivity. }
  rewrite G, fsum_fin, Rsum_filter. reflexivity.
Qed.

Lemma np_bin_fin (f : xr -> xr -> xr) (h : R -> R -> R) {B} (p q : B -> R) l : (forall x y, f (Fin x) (Fin y) = Fin (h x y)) ->
  np_bin f (map (fun x => Fin (p x)) l) (map (fun x => Fin (q x)) l) = Ok (map (fun x => Fin (h (p x) (q x))) l).
Proof. intros H. rewrite np_bin_map. f_equal. apply map_ext. intros; apply H. Qed.

(** ** the Poisson problem on items *)
Section Poisson.
  Variables (I : list item) (N : nat).
  Hypothesis Hrange : forall it, In it I -> (ia it < N)%nat /\ (ib it < N)%nat.

  Definition degree (i : nat) : R := Rsum (map (fun it => ((if Nat.eqb (ia it) i then 1 else 0) + (if Nat.eqb (ib it) i then 1 else 0)) * iw it) I).
  Definition lapl (i j : nat) : R :=
    Rsum (map (fun it => (if Nat.eqb (ia it) i && Nat.eqb (ib it) j then - iw it else 0) + (if Nat.eqb (ib it) i && Nat.eqb (ia it) j then - iw it else 0)) I)
    + (if Nat.eqb i j then degree i else 0).

  Lemma lapl_entry ab fac i j : ab = map (fun it => (ia it, ib it)) I -> fac = map (fun it => Fin (iw it)) I -> (i < N)%nat ->
    coo_entry (ab ++ map (fun e => (snd e, fst e)) ab ++ map (fun k => (k, k)) (seq 0 N))
      (map opp fac ++ map opp fac ++ map (fun k => Fin (degree k)) (seq 0 N)) i j = Fin (lapl i j).
  Proof.
    intros -> -> Hi. rewrite !map_map. cbn [fst snd].
    set (T := (nat * nat * R)%type).
    set (l := map (fun it => ((ia it, ib it), - iw it) : T) I ++ map (fun it => ((ib it, ia it), - iw it) : T) I ++ map (fun k => ((k, k), degree k) : T) (seq 0 N)).
    assert (E1 : map (fun it => (ia it, ib it)) I ++ map (fun it => (ib it, ia it)) I ++ map (fun k => (k, k)) (seq 0 N) = map (fun x : T => (fst (fst x), snd (fst x))) l).
    { unfold l. rewrite !map_app, !map_map. reflexivity. }
    assert (E2 : map (fun it => opp (Fin (iw it))) I ++ map (fun it => opp (Fin (iw it))) I ++ map (fun k => Fin (degree k)) (seq 0 N) = map (fun x : T => Fin (snd x)) l).
    { unfold l. rewrite !map_app, !map_map. reflexivity. }
    rewrite E1, E2, coo_items. f_equal. unfold l. rewrite !map_app, !map_map, !Rsum_app. cbn [fst snd]. unfold lapl.
    rewrite Rsum_plus, Rsum_seq, Rplus_assoc. do 2 f_equal.
    rewrite (nsum_ext _ (fun k => if Nat.eqb k i then (if Nat.eqb i j then degree i else 0) else 0)).
    - rewrite nsum_pick. apply Nat.ltb_lt in Hi as ->. reflexivity.
    - intros k _. destruct (Nat.eqb_spec k i) as [->|]; [|reflexivity]. destruct (Nat.eqb i j); reflexivity.
  Qed.

  Lemma lapl_sym i j : lapl i j = lapl j i.
  Proof.
    unfold lapl. f_equal.
    - apply Rsum_ext. intros it _. rewrite (andb_comm (Nat.eqb (ia it) j)), (andb_comm (Nat.eqb (ib it) j)). ring.
    - destruct (Nat.eqb_spec i j) as [->|]; [rewrite Nat.eqb_refl; reflexivity|]. destruct (Nat.eqb_spec j i); [congruence|reflexivity].
  Qed.

  Lemma lapl_apply x i : (i < N)%nat -> apply lapl N x i = Rsum (map (fun it => sgn_at i it * (iw it * (x (ia it) - x (ib it)))) I).
  Proof.
    intros Hi. unfold apply, lapl.
    rewrite (nsum_ext _ (fun j => Rsum (map (fun it => (if Nat.eqb (ib it) j then (if Nat.eqb (ia it) i then - iw it * x (ib it) else 0) else 0)
         + (if Nat.eqb (ia it) j then (if Nat.eqb (ib it) i then - iw it * x (ia it) else 0) else 0)) I)
       + (if Nat.eqb j i then degree j * x j else 0))).
    2:{ intros j _. rewrite Rmult_plus_distr_r. f_equal.
        - rewrite Rmult_comm, <- Rsum_scal. apply Rsum_ext. intros it _.
          destruct (Nat.eqb (ia it) i), (Nat.eqb (ib it) i); destruct (Nat.eqb_spec (ia it) j) as [ea|], (Nat.eqb_spec (ib it) j) as [eb|]; simpl; rewrite ?ea, ?eb; ring.
        - rewrite Nat.eqb_sym. destruct (Nat.eqb_spec j i) as [->|]; ring. }
    rewrite nsum_plus, nsum_pick. apply Nat.ltb_lt in Hi as ->. rewrite nsum_Rsum. unfold degree. rewrite Rmult_comm, <- Rsum_scal, <- Rsum_plus.
    apply Rsum_ext. intros it Hit. destruct (Hrange it Hit) as [Ha Hb]. rewrite nsum_plus, !nsum_delta.
    apply Nat.ltb_lt in Ha as ->. apply Nat.ltb_lt in Hb as ->. unfold sgn_at.
    destruct (Nat.eqb_spec (ia it) i) as [ea|], (Nat.eqb_spec (ib it) i) as [eb|]; rewrite ?ea, ?eb; ring.
  Qed.

  Definition pinned (ref i j : nat) : R := if Nat.eqb i ref && Nat.eqb j ref then lapl i j + 1 else lapl i j.
  Lemma pinned_sym ref i j : pinned ref i j = pinned ref j i.
  Proof. unfold pinned. rewrite andb_comm, lapl_sym. reflexivity. Qed.
  Lemma pinned_apply ref x i : (ref < N)%nat -> (i < N)%nat ->
    apply (pinned ref) N x i = Rsum (map (fun it => sgn_at i it * (iw it * (x (ia it) - x (ib it)))) I) + (if Nat.eqb i ref then x ref else 0).
  Proof.
    intros Hr Hi. rewrite <- lapl_apply by assumption. unfold apply, pinned.
    rewrite (nsum_ext _ (fun j => lapl i j * x j + (if Nat.eqb j ref then (if Nat.eqb i ref then x j else 0) else 0))).
    - rewrite nsum_plus, nsum_pick. apply Nat.ltb_lt in Hr as ->. f_equal.
    - intros j _. destruct (Nat.eqb i ref), (Nat.eqb j ref); simpl; ring.
  Qed.
End Poisson.

Section Solve.
  Variable eos_s_t : xr -> xr -> xr -> res (xr * xr).
  Variables (rs rt : R -> R -> R -> R).
  Variable D : domain.
  Hypothesis Heos : eos_s_t_on D eos_s_t rs rt.
  Variables (stp : list bottle) (edges : list (nat * nat)) (fac : list R) (m : list nat) (mref : nat) (w : nat -> R * R * R).
  Hypothesis Hreg : region stp edges fac m mref w.
  Hypothesis Hwat : forall i, In i m -> water_in D (w i).
  Notation n := (length stp).
  Notation N := (length m).
  Notation err := (fun a b => water_error rs rt (w a) (w b)).
  Notation items := (items rs rt edges fac m w).

  (** writing a solution back *)
  Lemma write_back (x : list R) : length x = N -> exists phi, np_set_all (repeat NaN n) m (map Fin x) = Ok phi /\ length phi = n
    /\ (forall k i, nth_error m k = Some i -> nth_error phi i = Some (Fin (nth k x 0)))
    /\ (forall i, (i < n)%nat -> ~ In i m -> nth_error phi i = Some NaN).
  Proof.
    intros L. destruct (r_nodes _ _ _ _ _ _ Hreg) as [Hd _].
    destruct (np_set_all_ok (repeat NaN n) m (map Fin x)) as (y & E & Ly & H1 & H2); [assumption|rewrite map_length; assumption| |].
    - intros i Hi. rewrite repeat_length. eapply nodes_lt; eassumption.
    - exists y. split; [assumption|]. split; [rewrite Ly; apply repeat_length|]. split.
      + intros k i Hk. apply (H1 k); [assumption|]. rewrite nth_error_map, (nth_error_nth' x 0) by (rewrite L; eapply nth_error_lt; exact Hk). reflexivity.
      + intros i Hi Hn. rewrite H2 by assumption. apply nth_error_repeat_lt. assumption.
  Qed.

  Notation rhs := (map (fun i => Rsum (map (fun it => sgn_at i it * (iw it * ie it)) items)) (seq 0 N)).
  Lemma poisson_system g : distances g (length edges) fac -> (1 < N)%nat ->
    exists A, real_matrix N N A (pinned items (pos m mref)) /\ positive_definite N (pinned items (pos m mref))
      /\ forall spsolve, matsolve_poisson eos_s_t spsolve stp edges g m mref
           = let! phi := np_set_all (repeat NaN n) m (spsolve N A (map Fin rhs)) in np_set phi mref (Fin 0).
  Proof.
    intros Hg HN. set (r := rhs). unfold matsolve_poisson. destruct (Nat.leb_spec N 1) as [HN'|_]; [lia|].
    rewrite (helper_ok eos_s_t rs rt D Heos stp edges fac m mref w Hreg Hwat g Hg). cbn [bind]. cbv iota.
    assert (Hr : forall it, In it items -> (ia it < N)%nat /\ (ib it < N)%nat) by (intros it Hit; eapply items_range; eassumption).
    destruct (r_nodes _ _ _ _ _ _ Hreg) as [Hd Hm]. assert (Hp := pos_lt _ _ Hm).
    rewrite !map_map. cbn [fst snd].
    rewrite (agg_items ia (fun it => iw it * ie it) items N) by (intros it Hit; apply Hr; assumption). cbn [bind].
    rewrite (agg_items ib (fun it => iw it * ie it) items N) by (intros it Hit; apply Hr; assumption). cbn [bind].
    rewrite (np_bin_fin sub Rminus) by reflexivity. cbn [bind].
    rewrite (agg_items ia iw items N) by (intros it Hit; apply Hr; assumption). cbn [bind].
    rewrite (agg_items ib iw items N) by (intros it Hit; apply Hr; assumption). cbn [bind].
    rewrite (np_bin_fin add Rplus) by reflexivity. cbn [bind].
    assert (Ei : np_index N (Z.of_nat (pos m mref)) = Ok (pos m mref)).
    { unfold np_index. replace ((- Z.of_nat N <=? Z.of_nat (pos m mref))%Z) with true by (symmetry; apply Z.leb_le; lia).
      replace ((Z.of_nat (pos m mref) <? Z.of_nat N)%Z) with true by (symmetry; apply Z.ltb_lt; lia).
      replace ((Z.of_nat (pos m mref) <? 0)%Z) with false by (symmetry; apply Z.ltb_ge; lia). cbn [andb]. f_equal. lia. }
    rewrite Ei. cbn [bind].
    assert (EG : map (fun x => Fin (Rsum (map (fun it => (if Nat.eqb (ia it) x then 1 else 0) * iw it) items)
        + Rsum (map (fun it => (if Nat.eqb (ib it) x then 1 else 0) * iw it) items))) (seq 0 N) = map (fun k => Fin (degree items k)) (seq 0 N)).
    { apply map_ext. intros k. f_equal. unfold degree. rewrite <- Rsum_plus. apply Rsum_ext. intros; ring. }
    rewrite EG.
    assert (ED : map (fun x => Fin (Rsum (map (fun it => (if Nat.eqb (ia it) x then 1 else 0) * (iw it * ie it)) items)
        - Rsum (map (fun it => (if Nat.eqb (ib it) x then 1 else 0) * (iw it * ie it)) items))) (seq 0 N)
      = map Fin r).
    { unfold r. rewrite map_map. apply map_ext. intros k. f_equal. rewrite <- Rsum_minus. apply Rsum_ext. intros; unfold sgn_at; ring. }
    rewrite ED. cbn [nan xrNum]. replace (@lit xr _ 0 0) with (Fin 0) by (xsimp; reflexivity).
    eexists. split; [|split; [|intros spsolve; reflexivity]].
    - intros i j Hi Hj. cbv beta. pose proof (lapl_entry items N (map (fun it => (ia it, ib it)) items) (map (fun it => Fin (iw it)) items) i j eq_refl eq_refl Hi) as El.
      rewrite !map_map in El. cbn [fst snd] in El. rewrite El. unfold pinned. unfold one. destruct (_ && _)%bool; [xsimp|]; reflexivity.
    - apply (laplacian_pd items N (pos m mref)); trivial.
      + intros it Hit. eapply items_weight; eassumption.
      + intros i Hi. eapply items_connected; eassumption.
      + intros i j _ _. apply pinned_sym.
      + intros x i Hi. apply pinned_apply; assumption.
  Qed.

  Lemma poisson_correct spsolve g : exact_spsolve spsolve -> distances g (length edges) fac ->
    exists phi, matsolve_poisson eos_s_t spsolve stp edges g m mref = Ok phi /\ least_squares n m mref (objective edges fac m err) phi.
  Proof.
    intros Hsp Hg. destruct (Nat.le_gt_cases N 1) as [HN|HN].
    { unfold matsolve_poisson. rewrite (proj2 (Nat.leb_le _ _) HN). eapply isolated_correct; eassumption. }
    destruct (poisson_system g Hg HN) as (A & RM & PD & EQ). rewrite EQ.
    assert (Hr : forall it, In it items -> (ia it < N)%nat /\ (ib it < N)%nat) by (intros it Hit; eapply items_range; eassumption).
    destruct (r_nodes _ _ _ _ _ _ Hreg) as [Hd Hm]. assert (Hp := pos_lt _ _ Hm).
    assert (Lr : length rhs = N) by (rewrite map_length, seq_length; reflexivity).
    destruct (Hsp N A _ _ RM PD Lr) as (x & Lx & Ex & Hx). rewrite Ex.
    assert (Hx' : forall i, (i < N)%nat -> apply (pinned items (pos m mref)) N (fun j => nth j x 0) i = Rsum (map (fun it => sgn_at i it * (iw it * ie it)) items)).
    { intros i Hi. rewrite (Hx i Hi). rewrite nth_map_seq by assumption. reflexivity. }
    assert (Href : nth (pos m mref) x 0 = 0).
    { apply (solution_ref items N (pos m mref) Hp Hr (pinned items (pos m mref))) with (x := fun j => nth j x 0); trivial.
      intros; apply pinned_apply; assumption. }
    assert (Hmin : forall y, cost items (fun j => nth j x 0) <= cost items y).
    { apply (solution_min items N (pos m mref) Hp Hr) with (M := pinned items (pos m mref)); trivial.
      - intros it Hit. eapply items_weight; eassumption.
      - intros; apply pinned_apply; assumption. }
    destruct (write_back x Lx) as (phi & E & L & H1 & H2). cbn [nan xrNum] in *. rewrite E. cbn [bind].
    unfold np_set. rewrite L. assert (Hlt : (mref < n)%nat) by (eapply nodes_lt; eassumption). apply Nat.ltb_lt in Hlt as Hb. rewrite Hb.
    eexists. split; [reflexivity|].
    eapply (back_to_nodes rs rt stp edges fac m mref w Hreg (fun k => nth k x 0)); trivial.
    - rewrite length_upd. assumption.
    - intros k i Hk. destruct (Nat.eq_dec i mref) as [->|Hne].
      + rewrite nth_error_upd_eq by lia. rewrite <- (pos_inj m k mref Hd Hk), Href. reflexivity.
      + rewrite nth_error_upd_neq by congruence. apply H1. assumption.
    - intros i Hi Hn. rewrite nth_error_upd_neq by (intros ->; contradiction). apply H2; assumption.
  Qed.

  (** ** the gradient problem: weights are square roots *)
  Notation rfac := (map sqrt fac).
  Definition root (it : item) : item := mkI (ia it) (ib it) (sqrt (iw it)) (ie it).

  Lemma region_sqrt : region stp edges rfac m mref w.
  Proof.
    destruct Hreg as [H1 [H2 H2'] H3 H4 H5]. constructor; trivial.
    - split; [rewrite map_length; assumption|]. apply Forall_map. eapply Forall_impl; [|exact H2']. intros; apply sqrt_pos.
    - intros i Hi. destruct (H5 i Hi) as [k W]. exists k. clear Hi. induction W as [|k a b W IH El Hb]; [constructor; assumption|].
      econstructor; [exact IH| |assumption]. destruct El as (q & e & f & E1 & E2 & Hf & J). exists q, e, (sqrt f).
      split; [assumption|]. split; [rewrite nth_error_map, E2; reflexivity|]. split; [apply sqrt_lt_R0; assumption|assumption].
  Qed.

  Lemma items_sqrt : P_matsolve.items rs rt edges rfac m w = map root items.
  Proof.
    unfold P_matsolve.items, kept. rewrite map_map. clear. generalize fac. induction edges as [|e r IH]; intros [|f q]; try reflexivity.
    cbn [map combine filter]. change (good m (e, sqrt f)) with (good m (e, f)). destruct (good m (e, f)); cbn [map]; rewrite IH; reflexivity.
  Qed.

  Lemma nth_error_map' {A B} (f : A -> B) l k y : nth_error (map f l) k = Some y -> exists x, nth_error l k = Some x /\ y = f x.
  Proof. rewrite nth_error_map. destruct (nth_error l k); [|discriminate]. intros E. injection E as <-. eauto. Qed.

  (** entries of the gradient matrix *)
  Section Entries.
    Variables (I : list item) (Nn ref : nat) (c : R).
    Hypothesis Hrange : forall it, In it I -> (ia it < Nn)%nat /\ (ib it < Nn)%nat.
    Definition gent : list (nat * nat * R) :=
      map (fun kit => (fst kit, ia (snd kit), - iw (snd kit))) (combine (seq 0 (length I)) I)
      ++ map (fun kit => (fst kit, ib (snd kit), iw (snd kit))) (combine (seq 0 (length I)) I) ++ [(length I, ref, c)].
    Definition gmat (i j : nat) : R := Rsum (map (fun x : nat * nat * R => if Nat.eqb (fst (fst x)) i && Nat.eqb (snd (fst x)) j then snd x else 0) gent).

    Lemma combine_seq_map {B} (h : item -> B) : forall l s, combine (seq s (length l)) (map h l) = map (fun kit => (fst kit, h (snd kit))) (combine (seq s (length l)) l).
    Proof. induction l as [|x l IH]; intros s; simpl; [reflexivity|]. rewrite IH. reflexivity. Qed.
    Lemma map_combine_seq {B} (h : item -> B) : forall l s, map h l = map (fun kit => h (snd kit)) (combine (seq s (length l)) l).
    Proof. induction l as [|x l IH]; intros s; simpl; [reflexivity|]. rewrite (IH (S s)). reflexivity. Qed.
    Lemma combine_app {A B} : forall (l : list A) (l' : list B) r r', length l = length l' -> combine (l ++ r) (l' ++ r') = combine l l' ++ combine r r'.
    Proof. induction l as [|x l IH]; intros [|y l'] r r' H; try discriminate; simpl; [reflexivity|]. rewrite IH by (simpl in H; lia). reflexivity. Qed.

    Lemma gmat_entry i j :
      coo_entry (combine (seq 0 (length I) ++ seq 0 (length I) ++ [length I]) (map ia I ++ map ib I ++ [ref]))
        (map (fun it => opp (Fin (iw it))) I ++ map (fun it => Fin (iw it)) I ++ [Fin c]) i j = Fin (gmat i j).
    Proof.
      assert (E1 : combine (seq 0 (length I) ++ seq 0 (length I) ++ [length I]) (map ia I ++ map ib I ++ [ref]) = map (fun x : nat * nat * R => (fst (fst x), snd (fst x))) gent).
      { rewrite !combine_app by (rewrite seq_length, map_length; reflexivity). rewrite !combine_seq_map. unfold gent. rewrite !map_app, !map_map. reflexivity. }
      assert (E2 : map (fun it => opp (Fin (iw it))) I ++ map (fun it => Fin (iw it)) I ++ [Fin c] = map (fun x : nat * nat * R => Fin (snd x)) gent).
      { rewrite (map_combine_seq (fun it => opp (Fin (iw it))) I 0), (map_combine_seq (fun it => Fin (iw it)) I 0). unfold gent. rewrite !map_app, !map_map. reflexivity. }
      rewrite E1, E2, coo_items. reflexivity.
    Qed.

    Lemma gmat_apply x i : (ref < Nn)%nat -> apply gmat Nn x i
      = Rsum (map (fun y : nat * nat * R => if Nat.eqb (fst (fst y)) i then snd y * x (snd (fst y)) else 0) gent).
    Proof.
      intros Hr. unfold apply, gmat.
      rewrite (nsum_ext _ (fun j => Rsum (map (fun y : nat * nat * R => if Nat.eqb (snd (fst y)) j then (if Nat.eqb (fst (fst y)) i then snd y * x (snd (fst y)) else 0) else 0) gent))).
      2:{ intros j _. rewrite Rmult_comm, <- Rsum_scal. apply Rsum_ext. intros y _.
          destruct (Nat.eqb (fst (fst y)) i); destruct (Nat.eqb_spec (snd (fst y)) j) as [e|]; simpl; rewrite ?e; ring. }
      rewrite nsum_Rsum. apply Rsum_ext. intros y Hy. rewrite nsum_delta.
      assert (Hlt : (snd (fst y) < Nn)%nat).
      { unfold gent in Hy. rewrite !in_app_iff in Hy. destruct Hy as [Hy|[Hy|[<-|[]]]].
        - apply in_map_iff in Hy as ([k it] & <- & Hy). apply in_combine_r in Hy. simpl. apply Hrange. assumption.
        - apply in_map_iff in Hy as ([k it] & <- & Hy). apply in_combine_r in Hy. simpl. apply Hrange. assumption.
        - assumption. }
      apply Nat.ltb_lt in Hlt as ->. reflexivity.
    Qed.

    Lemma Rsum_at (h : item -> R) : forall l s k it, nth_error l k = Some it ->
      Rsum (map (fun kit : nat * item => if Nat.eqb (fst kit) (s + k) then h (snd kit) else 0) (combine (seq s (length l)) l)) = h it.
    Proof.
      induction l as [|x l IH]; intros s [|k] it E; try discriminate; cbn [length seq combine map Rsum fold_right fst snd].
      - injection E as <-. rewrite Nat.add_0_r, Nat.eqb_refl. fold (Rsum (map (fun kit : nat * item => if Nat.eqb (fst kit) s then h (snd kit) else 0) (combine (seq (S s) (length l)) l))).
        rewrite Rsum_zero; [ring|]. intros [q y] Hq. apply in_combine_l, in_seq in Hq. cbn [fst]. destruct (Nat.eqb_spec q s); [lia|reflexivity].
      - destruct (Nat.eqb_spec s (s + S k)); [lia|]. replace (s + S k)%nat with (S s + k)%nat by lia.
        specialize (IH (S s) k it E). unfold Rsum in IH. rewrite IH. ring.
    Qed.

    Lemma gmat_edge x k it : (ref < Nn)%nat -> nth_error I k = Some it -> apply gmat Nn x k = iw it * (x (ib it) - x (ia it)).
    Proof.
      intros Hr Hk. rewrite gmat_apply by assumption. unfold gent. rewrite !map_app, !Rsum_app, !map_map. cbn [fst snd map].
      pose proof (Rsum_at (fun it => - iw it * x (ia it)) I 0 k it Hk) as E1. pose proof (Rsum_at (fun it => iw it * x (ib it)) I 0 k it Hk) as E2.
      cbn [Nat.add] in E1, E2. rewrite E1, E2. pose proof (nth_error_lt _ _ _ Hk).
      destruct (Nat.eqb_spec (length I) k); [lia|]. simpl. ring.
    Qed.

    Lemma gmat_ref x : (ref < Nn)%nat -> apply gmat Nn x (length I) = c * x ref.
    Proof.
      intros Hr. rewrite gmat_apply by assumption. unfold gent. rewrite !map_app, !Rsum_app, !map_map. cbn [fst snd map].
      rewrite !Rsum_zero; [rewrite Nat.eqb_refl; simpl; ring|..];
        intros [q y] Hq; apply in_combine_l, in_seq in Hq; cbn [fst]; destruct (Nat.eqb_spec q (length I)); [lia|reflexivity|lia|reflexivity].
    Qed.
  End Entries.

  Notation rhsg := (map (fun it => - (sqrt (iw it) * ie it)) items ++ [0]).
  Notation cpin := (Rlit 1 (-2)).
  Notation gm := (gmat (map root items) (pos m mref) cpin).
  Lemma cpin_pos : 0 < cpin.
  Proof. unfold Rlit. simpl. lra. Qed.
  Lemma gm_edge x k it : nth_error items k = Some it -> apply gm N x k = sqrt (iw it) * (x (ib it) - x (ia it)).
  Proof.
    intros Hk. rewrite (gmat_edge (map root items) N (pos m mref) cpin) with (it := root it); [reflexivity|..].
    - intros i Hi. apply in_map_iff in Hi as (i' & <- & Hi). simpl. eapply items_range; eassumption.
    - apply pos_lt. apply (r_nodes _ _ _ _ _ _ Hreg).
    - rewrite nth_error_map, Hk. reflexivity.
  Qed.
  Lemma gm_ref x : apply gm N x (length items) = cpin * x (pos m mref).
  Proof.
    pose proof (gmat_ref (map root items) N (pos m mref) cpin) as Eg. rewrite map_length in Eg. apply Eg.
    - intros i Hi. apply in_map_iff in Hi as (i' & <- & Hi). simpl. eapply items_range; eassumption.
    - apply pos_lt. apply (r_nodes _ _ _ _ _ _ Hreg).
  Qed.

  Lemma gradient_system g : distances g (length edges) rfac -> (1 < N)%nat ->
    exists A, real_matrix (S (length items)) N A gm /\ full_column_rank (S (length items)) N gm
      /\ forall lsqr, matsolve_gradient eos_s_t lsqr stp edges g m mref
           = let sol := lsqr (S (length items)) N A (map Fin rhsg) in
             let! s0 := np_get sol (pos m mref) in np_set_all (repeat NaN n) m (map (fun x => sub x s0) sol).
  Proof.
    intros Hg HN. set (r := rhsg). unfold matsolve_gradient. destruct (Nat.leb_spec N 1) as [HN'|_]; [lia|].
    rewrite (helper_ok eos_s_t rs rt D Heos stp edges rfac m mref w region_sqrt Hwat g Hg). cbn [bind]. cbv iota.
    rewrite items_sqrt, !map_map. cbn [root ia ib iw ie fst snd].
    destruct (r_nodes _ _ _ _ _ _ Hreg) as [Hd Hm]. assert (Hp := pos_lt _ _ Hm).
    replace ((Z.of_nat (pos m mref) <? 0)%Z) with false by (symmetry; apply Z.ltb_ge; lia). cbv zeta. rewrite Nat2Z.id, map_length.
    assert (Eb : map (fun x => opp (Fin (sqrt (iw x) * ie x))) items ++ [@lit xr _ 0 0] = map Fin r).
    { unfold r. rewrite map_app, map_map. cbn [map]. xsimp. reflexivity. }
    rewrite Eb. eexists. split; [|split; [|intros lsqr; reflexivity]].
    - intros i j _ _. pose proof (gmat_entry (map root items) (pos m mref) cpin i j) as Eg. rewrite map_length, !map_map in Eg. exact Eg.
    - apply (gradient_rank items N (pos m mref) Hp) with (c := cpin).
      + intros i Hi. eapply items_connected; eassumption.
      + exact cpin_pos.
      + intros x k it Hk. apply gm_edge. assumption.
      + intros x. apply gm_ref.
  Qed.

  Lemma gradient_correct lsqr g : exact_lsqr lsqr -> distances g (length edges) rfac ->
    exists phi, matsolve_gradient eos_s_t lsqr stp edges g m mref = Ok phi /\ least_squares n m mref (objective edges fac m err) phi.
  Proof.
    intros Hls Hg. destruct (Nat.le_gt_cases N 1) as [HN|HN].
    { unfold matsolve_gradient. rewrite (proj2 (Nat.leb_le _ _) HN). eapply isolated_correct; eassumption. }
    destruct (gradient_system g Hg HN) as (A & RM & FR & EQ). rewrite EQ. cbv zeta.
    destruct (r_nodes _ _ _ _ _ _ Hreg) as [Hd Hm]. assert (Hp := pos_lt _ _ Hm).
    assert (Hwt : forall it, In it items -> 0 <= iw it) by (intros it Hit; eapply items_weight; eassumption).
    destruct (Hls (S (length items)) N A _ rhsg RM FR) as (x & Lx & Ex & Hx).
    { rewrite app_length, map_length. simpl. lia. }
    rewrite Ex.
    destruct (gradient_min items N (pos m mref) Hwt gm cpin cpin_pos gm_edge gm_ref (fun i => nth i rhsg 0)) with (x := fun j => nth j x 0) as [H0 Hmin]; trivial.
    - intros k it Hk. rewrite app_nth1 by (rewrite map_length; eapply nth_error_lt; exact Hk). apply nth_error_nth_iff. rewrite nth_error_map, Hk. reflexivity.
    - rewrite app_nth2 by (rewrite map_length; lia). rewrite map_length, Nat.sub_diag. reflexivity.
    - assert (Eg : np_get (map Fin x) (pos m mref) = Ok (Fin 0)).
      { apply np_get_ok. rewrite nth_error_map, (nth_error_nth' x 0) by lia. cbn [option_map]. do 2 f_equal. exact H0. }
      rewrite Eg. cbn [bind]. rewrite map_map.
      rewrite (map_ext _ Fin) by (intros r; xsimp; f_equal; ring).
      destruct (write_back x Lx) as (phi & E & L & H1 & H2). cbn [nan xrNum] in *. rewrite E. exists phi. split; [reflexivity|].
      eapply (back_to_nodes rs rt stp edges fac m mref w Hreg (fun k => nth k x 0)); assumption.
  Qed.
End Solve.

(** least squares solutions are unique *)
Lemma least_squares_unique n m mref J phi psi : least_squares n m mref J phi -> least_squares n m mref J psi -> (forall i, In i m -> (i < n)%nat) -> phi = psi.
Proof.
  intros (f & L & H1 & H2 & H0 & Hmin & Hu) (g & L' & H1' & H2' & H0' & Hmin' & _) Hlt. apply nth_error_ext. intros i.
  destruct (Nat.lt_ge_cases i n) as [Hi|Hi]; [|rewrite !(proj2 (nth_error_None _ _)) by lia; reflexivity].
  destruct (mem i m) eqn:Em.
  - apply mem_iff in Em. rewrite H1, H1' by assumption. do 2 f_equal.
    assert (E : J g = J f) by (apply Rle_antisym; auto). rewrite <- (Hu g E i Em). lra.
  - assert (~ In i m) by (intros H; apply mem_iff in H; congruence). rewrite H2, H2' by assumption. reflexivity.
Qed.

(** ** statements *)
Lemma solvers_agree D eos_s_t rs rt stp edges fac m mref w spsolve lsqr g g' :
  eos_s_t_on D eos_s_t rs rt -> region stp edges fac m mref w -> (forall i, In i m -> water_in D (w i)) -> exact_spsolve spsolve -> exact_lsqr lsqr ->
  distances g (length edges) fac -> distances g' (length edges) (map sqrt fac) ->
  matsolve_poisson eos_s_t spsolve stp edges g m mref = matsolve_gradient eos_s_t lsqr stp edges g' m mref.
Proof.
  intros He Hreg Hwat Hs Hl Hg Hg'. destruct (poisson_correct eos_s_t rs rt D He _ _ _ _ _ _ Hreg Hwat spsolve g Hs Hg) as (phi & -> & H1).
  destruct (gradient_correct eos_s_t rs rt D He _ _ _ _ _ _ Hreg Hwat lsqr g' Hl Hg') as (psi & -> & H2). f_equal.
  eapply least_squares_unique; [exact H1|exact H2|]. intros i Hi. eapply nodes_lt; eassumption.
Qed.

Lemma poisson_only_pd D eos_s_t rs rt stp edges fac m mref w g sp sp' :
  eos_s_t_on D eos_s_t rs rt -> region stp edges fac m mref w -> (forall i, In i m -> water_in D (w i)) -> distances g (length edges) fac ->
  (forall N A M r, real_matrix N N A M -> positive_definite N M -> length r = N -> sp N A (map Fin r) = sp' N A (map Fin r)) ->
  matsolve_poisson eos_s_t sp stp edges g m mref = matsolve_poisson eos_s_t sp' stp edges g m mref.
Proof.
  intros He Hreg Hwat Hg H. destruct (Nat.le_gt_cases (length m) 1) as [HN|HN].
  - unfold matsolve_poisson. rewrite (proj2 (Nat.leb_le _ _) HN). reflexivity.
  - destruct (poisson_system eos_s_t rs rt D He _ _ _ _ _ _ Hreg Hwat g Hg HN) as (A & RM & PD & EQ). rewrite !EQ.
    rewrite (H _ A _ _ RM PD); [reflexivity|]. rewrite map_length, seq_length. reflexivity.
Qed.

Lemma gradient_only_full_rank D eos_s_t rs rt stp edges fac m mref w g ls ls' :
  eos_s_t_on D eos_s_t rs rt -> region stp edges fac m mref w -> (forall i, In i m -> water_in D (w i)) -> distances g (length edges) (map sqrt fac) ->
  (forall k N A M r, real_matrix k N A M -> full_column_rank k N M -> length r = k -> ls k N A (map Fin r) = ls' k N A (map Fin r)) ->
  matsolve_gradient eos_s_t ls stp edges g m mref = matsolve_gradient eos_s_t ls' stp edges g m mref.
Proof.
  intros He Hreg Hwat Hg H. destruct (Nat.le_gt_cases (length m) 1) as [HN|HN].
  - unfold matsolve_gradient. rewrite (proj2 (Nat.leb_le _ _) HN). reflexivity.
  - destruct (gradient_system eos_s_t rs rt D He _ _ _ _ _ _ Hreg Hwat g Hg HN) as (A & RM & FR & EQ). rewrite !EQ. cbv zeta.
    rewrite (H _ _ A _ _ RM FR); [reflexivity|]. rewrite app_length, map_length. simpl. lia.
Qed.
