(** * The matrix problems of omega surfaces: proofs *)
From Coq Require Import ZArith Bool List Lia Arith Reals Lra.
From Verif Require Import Num XR XRlemmas Res Arr ArrLemmas NdLemmas M_graph M_lib M_ntp M_matsolve
  S_graph S_lib S_ntp S_matsolve P_lib P_div P_ntp P_ntp2 P_linalg P_laplacian.
Import ListNotations.
Local Open Scope R_scope.

(** ** numpy assignments *)
Lemma np_set_all_ok {A} (x : list A) idx vals : NoDup idx -> length vals = length idx -> (forall i, In i idx -> (i < length x)%nat) ->
  exists y, np_set_all x idx vals = Ok y /\ length y = length x
    /\ (forall k i v, nth_error idx k = Some i -> nth_error vals k = Some v -> nth_error y i = Some v)
    /\ (forall i, ~ In i idx -> nth_error y i = nth_error x i).
Proof.
  intros Hd Hl Hr. unfold np_set_all. rewrite Hl, Nat.eqb_refl.
  revert x vals Hl Hr. induction Hd as [|i idx Hi Hd IH]; intros x [|v vals] Hl Hr; try discriminate.
  - exists x. split; [reflexivity|]. split; [reflexivity|]. split; [intros [|k] ? ? E; discriminate|reflexivity].
  - cbn [combine for_each fst snd]. unfold np_set at 1. assert (Hlt : (i < length x)%nat) by (apply Hr; left; reflexivity).
    apply Nat.ltb_lt in Hlt as Hb. rewrite Hb. cbn [bind].
    destruct (IH (upd x i v) vals) as (y & E & L & H1 & H2).
    + simpl in Hl. lia.
    + intros j Hj. rewrite length_upd. apply Hr. right. assumption.
    + exists y. split; [exact E|]. split; [rewrite L; apply length_upd|]. split.
      * intros [|k] j w Ej Ew; simpl in Ej, Ew.
        -- injection Ej as <-. injection Ew as <-. rewrite H2 by assumption. apply nth_error_upd_eq. assumption.
        -- eapply H1; eassumption.
      * intros j Hj. rewrite H2 by (intros H; apply Hj; right; assumption). apply nth_error_upd_neq. intros ->. apply Hj. left. reflexivity.
Qed.

(** position of a node in m *)
Fixpoint pos (m : list nat) (i : nat) : nat :=
  match m with [] => 0 | j :: r => if Nat.eqb i j then 0 else S (pos r i) end.
Lemma pos_nth m i : In i m -> nth_error m (pos m i) = Some i.
Proof.
  induction m as [|j m IH]; intros H; [destruct H|]. simpl. destruct (Nat.eqb_spec i j) as [->|Hn]; [reflexivity|].
  destruct H as [->|H]; [contradiction|]. apply IH. assumption.
Qed.
Lemma pos_lt m i : In i m -> (pos m i < length m)%nat.
Proof. intros H. eapply nth_error_lt. apply pos_nth. assumption. Qed.
Lemma pos_inj m k i : NoDup m -> nth_error m k = Some i -> pos m i = k.
Proof.
  intros Hd. revert k. induction Hd as [|j m Hj Hd IH]; intros [|k] E; try discriminate; simpl in *.
  - injection E as ->. rewrite Nat.eqb_refl. reflexivity.
  - destruct (Nat.eqb_spec i j) as [->|]; [exfalso; apply Hj; eapply nth_error_In; eassumption|]. f_equal. auto.
Qed.
Lemma mem_iff i m : mem i m = true <-> In i m.
Proof.
  unfold mem. rewrite existsb_exists. split.
  - intros (j & Hj & E). apply Nat.eqb_eq in E as ->. assumption.
  - intros H. exists i. split; [assumption|apply Nat.eqb_refl].
Qed.

Lemma np_get_ok {A} (x : list A) i v : nth_error x i = Some v -> np_get x i = Ok v.
Proof. intros H. unfold np_get. rewrite H. reflexivity. Qed.

Lemma mapM_map {A B} (f : A -> res B) (h : A -> B) l : (forall x, In x l -> f x = Ok (h x)) -> mapM f l = Ok (map h l).
Proof.
  induction l as [|x l IH]; intros H; cbn [mapM map]; [reflexivity|]. rewrite H by (left; reflexivity). cbn [bind].
  rewrite IH by (intros; apply H; right; assumption). reflexivity.
Qed.

(** ** the helper *)
Section Helper.
  Variable eos_s_t : xr -> xr -> xr -> res (xr * xr).
  Variables (rs rt : R -> R -> R -> R).
  Variable D : domain.
  Hypothesis Heos : eos_s_t_on D eos_s_t rs rt.
  Variables (stp : list bottle) (edges : list (nat * nat)) (fac : list R) (m : list nat) (mref : nat) (w : nat -> R * R * R).
  Hypothesis Hreg : region stp edges fac m mref w.
  Hypothesis Hwat : forall i, In i m -> water_in D (w i).
  Notation n := (length stp).
  Notation err := (fun a b => water_error rs rt (w a) (w b)).

  Definition good (x : (nat * nat) * R) : bool := mem (fst (fst x)) m && mem (snd (fst x)) m.
  Definition kept : list ((nat * nat) * R) := filter good (combine edges fac).
  Definition relabel (x : (nat * nat) * R) : item :=
    mkI (pos m (fst (fst x))) (pos m (snd (fst x))) (snd x) (err (fst (fst x)) (snd (fst x))).
  Definition items : list item := map relabel kept.

  Lemma nodes_lt i : In i m -> (i < n)%nat.
  Proof. intros H. destruct (r_wet _ _ _ _ _ _ Hreg i H) as (x & E & _). eapply nth_error_lt. exact E. Qed.

  Lemma np_mask_kept {B} (h : (nat * nat) * R -> B) :
    np_mask (map h (combine edges fac)) (map good (combine edges fac)) = Ok (map h kept).
  Proof.
    unfold np_mask. rewrite !map_length, Nat.eqb_refl. f_equal. unfold kept. generalize (combine edges fac). intros l.
    induction l as [|x l IH]; simpl; [reflexivity|]. destruct (good x); simpl; rewrite IH; reflexivity.
  Qed.

  Lemma combine_fst : map fst (combine edges fac) = edges.
  Proof.
    destruct (r_weights _ _ _ _ _ _ Hreg) as [L _]. revert L. generalize edges fac. clear.
    induction edges as [|e l IH]; intros [|f q] L; try discriminate; simpl; [reflexivity|]. f_equal. apply IH. simpl in L. lia.
  Qed.
  Lemma combine_snd : map snd (combine edges fac) = fac.
  Proof.
    destruct (r_weights _ _ _ _ _ _ Hreg) as [L _]. revert L. generalize edges fac. clear.
    induction edges as [|e l IH]; intros [|f q] L; try discriminate; simpl; [reflexivity|]. f_equal. apply IH. simpl in L. lia.
  Qed.

  Lemma kept_in x : In x kept -> In (fst (fst x)) m /\ In (snd (fst x)) m /\ In x (combine edges fac).
  Proof.
    intros H. apply filter_In in H as [H G]. apply andb_true_iff in G as [Ga Gb]. apply mem_iff in Ga, Gb. auto.
  Qed.

  Lemma helper_ok g : distances g (length edges) fac ->
    matsolve_helper eos_s_t stp edges g m mref
    = Ok (map (fun it => (ia it, ib it)) items, map (fun it => Fin (iw it * ie it)) items, map (fun it => Fin (iw it)) items,
          Z.of_nat (pos m mref)).
  Proof.
    intros Hg. unfold matsolve_helper. destruct (r_nodes _ _ _ _ _ _ Hreg) as [Hd Hm].
    destruct (np_set_all_ok (repeat (-1)%Z n) m (map Z.of_nat (seq 0 (length m)))) as (remap & E & L & H1 & H2); trivial.
    { rewrite map_length, seq_length. reflexivity. }
    { intros i Hi. rewrite repeat_length. apply nodes_lt. assumption. }
    rewrite repeat_length in L. rewrite E. cbn [bind].
    assert (Rin : forall i, In i m -> np_get remap i = Ok (Z.of_nat (pos m i))).
    { intros i Hi. apply np_get_ok. apply (H1 (pos m i)); [apply pos_nth; assumption|].
      rewrite nth_error_map, (nth_error_nth' _ 0%nat) by (rewrite seq_length; apply pos_lt; assumption).
      rewrite seq_nth by (apply pos_lt; assumption). reflexivity. }
    assert (Rout : forall i, (i < n)%nat -> ~ In i m -> np_get remap i = Ok (-1)%Z).
    { intros i Hi Hn. apply np_get_ok. rewrite H2 by assumption. apply nth_error_repeat_lt. assumption. }
    rewrite <- combine_fst at 1.
    rewrite (mapM_map _ (fun e => mem (fst e) m && mem (snd e) m)).
    2:{ intros e He. rewrite combine_fst in He. destruct e as [a b]. destruct (r_edges _ _ _ _ _ _ Hreg a b He) as [Ha Hb]. cbn [fst snd].
        assert (G : forall i, (i < n)%nat -> exists z, np_get remap i = Ok z /\ (0 <=? z)%Z = mem i m).
        { intros i Hi. destruct (mem i m) eqn:Em.
          - apply mem_iff in Em. eexists. split; [apply Rin; assumption|]. apply Z.leb_le. lia.
          - eexists. split; [apply Rout; [assumption|]|reflexivity]. intros Hin. apply mem_iff in Hin. congruence. }
        destruct (G a Ha) as (za & -> & Ea). destruct (G b Hb) as (zb & -> & Eb). cbn [bind]. rewrite Ea, Eb. reflexivity. }
    cbn [bind]. rewrite map_map. change (fun x : nat * nat * R => mem (fst (fst x)) m && mem (snd (fst x)) m) with good.
    rewrite <- combine_fst at 1. rewrite np_mask_kept. cbn [bind].
    rewrite errors_unit. unfold ntp_epsilon_error1.
    rewrite (mapM_map _ (fun e : nat * nat => Fin (err (fst e) (snd e)))).
    2:{ intros e He. apply in_map_iff in He as (x & <- & Hx). apply kept_in in Hx as (Ha & Hb & _).
        destruct (r_wet _ _ _ _ _ _ Hreg _ Ha) as (xa & Exa & Fa). destruct (r_wet _ _ _ _ _ _ Hreg _ Hb) as (xb & Exb & Fb).
        rewrite (get_ok _ _ _ Exa). cbn [bind]. rewrite (get_ok _ _ _ Exb). cbn [bind]. apply (epsilon_1_real _ D); auto. }
    cbn [bind]. rewrite map_map.
    assert (EF : (match g with
      | Sc r => let fac0 := repeat r (length (map (fun x : nat * nat * R => Fin (err (fst (fst x)) (snd (fst x)))) kept)) in
                if eqb r one then Ok (map (fun x => Fin (err (fst (fst x)) (snd (fst x)))) kept, fac0)
                else (let! e := np_bin mul (map (fun x => Fin (err (fst (fst x)) (snd (fst x)))) kept) fac0 in Ok (e, fac0))
      | Ar l => let! fac0 := np_mask l (map good (combine edges fac)) in
                let! e := np_bin mul (map (fun x => Fin (err (fst (fst x)) (snd (fst x)))) kept) fac0 in Ok (e, fac0)
      end) = Ok (map (fun it => Fin (iw it * ie it)) items, map (fun it => Fin (iw it)) items)).
    { unfold items. rewrite !map_map. cbn [iw ie relabel].
      destruct Hg as [_ [->|(c & -> & Ec)]].
      - rewrite <- combine_snd at 1. rewrite map_map, np_mask_kept. cbn [bind]. rewrite np_bin_map. cbn [bind].
        do 2 f_equal. apply map_ext. intros x. xsimp. f_equal. ring.
      - assert (Hc : forall x, In x kept -> snd x = c).
        { intros x Hx. apply kept_in in Hx as (_ & _ & Hx). apply (in_map snd) in Hx. rewrite combine_snd, Ec in Hx. apply repeat_spec in Hx. assumption. }
        assert (Er : repeat (Fin c) (length (map (fun x : nat * nat * R => Fin (err (fst (fst x)) (snd (fst x)))) kept)) = map (fun x => Fin (snd x)) kept).
        { rewrite map_length. revert Hc. generalize kept. clear. intros l Hl. induction l as [|x l IH]; [reflexivity|]. simpl.
          rewrite (Hl x) by (left; reflexivity). f_equal. apply IH. intros; apply Hl; right; assumption. }
        cbv zeta. rewrite Er. unfold one. xsimp. destruct (Reqb_spec c 1) as [->|].
        + do 2 f_equal. apply map_ext_in. intros x Hx. rewrite (Hc x Hx). f_equal. ring.
        + rewrite np_bin_map. cbn [bind]. do 2 f_equal. apply map_ext. intros x. xsimp. f_equal. ring. }
    match goal with |- (let! ef := ?X in _) = _ => replace X with (Ok (map (fun it => Fin (iw it * ie it)) items, map (fun it => Fin (iw it)) items)) by (symmetry; exact EF) end.
    cbn [bind].
    rewrite (mapM_map _ (fun e : nat * nat => (pos m (fst e), pos m (snd e)))).
    2:{ intros e He. apply in_map_iff in He as (x & <- & Hx). apply kept_in in Hx as (Ha & Hb & _).
        rewrite (Rin _ Ha). cbn [bind]. rewrite (Rin _ Hb). cbn [bind]. rewrite !Nat2Z.id. reflexivity. }
    cbn [bind]. rewrite (Rin _ Hm). cbn [bind]. do 4 f_equal. unfold items. rewrite !map_map. reflexivity.
  Qed.

  (** ** the relabelled graph *)
  Notation N := (length m).
  Lemma items_range it : In it items -> (ia it < N)%nat /\ (ib it < N)%nat.
  Proof. intros H. apply in_map_iff in H as (x & <- & Hx). apply kept_in in Hx as (Ha & Hb & _). simpl. split; apply pos_lt; assumption. Qed.
  Lemma items_weight it : In it items -> 0 <= iw it.
  Proof.
    intros H. apply in_map_iff in H as (x & <- & Hx). apply kept_in in Hx as (_ & _ & Hx). simpl.
    apply (in_map snd) in Hx. rewrite combine_snd in Hx. destruct (r_weights _ _ _ _ _ _ Hreg) as [_ F]. rewrite Forall_forall in F. auto.
  Qed.
  Lemma items_connected i : (i < N)%nat -> reach (ilinked items) (fun j => (j < N)%nat) (pos m mref) i.
  Proof.
    intros Hi. destruct (nth_error m i) as [u|] eqn:Eu; [|apply nth_error_None in Eu; lia].
    destruct (r_nodes _ _ _ _ _ _ Hreg) as [Hd Hm].
    rewrite <- (pos_inj m i u Hd Eu). destruct (r_connected _ _ _ _ _ _ Hreg u (nth_error_In _ _ Eu)) as [k W]. exists k.
    clear Hi Eu. assert (Hin : forall k u, walk (linked edges fac) (fun j => In j m) mref k u -> In u m) by (intros ? ? []; assumption).
    induction W as [H|k a b W IH El Hb]; [constructor; apply pos_lt; assumption|].
    econstructor; [exact IH| |apply pos_lt; assumption]. destruct El as (q & e & f & Ee & Ef & Hf & J).
    assert (Hc : In (e, f) (combine edges fac)) by (eapply nth_error_In; rewrite nth_error_combine, Ee, Ef; reflexivity).
    assert (Ha : In a m) by (eapply Hin; exact W).
    exists (relabel (e, f)). split.
    { apply in_map. apply filter_In. split; [assumption|]. unfold good. cbn [fst]. apply andb_true_iff. rewrite !mem_iff.
      destruct J as [->| ->]; simpl; auto. }
    split; [exact Hf|]. simpl. destruct J as [->| ->]; simpl; [left|right]; reflexivity.
  Qed.

  Lemma objective_items (psi : nat -> R) : objective edges fac m err psi = cost items (fun k => psi (nth k m 0%nat)).
  Proof.
    unfold cost, items, kept. rewrite map_map. cbn [iw ie ia ib relabel].
    rewrite Rsum_filter.
    assert (Hp : forall i, In i m -> nth (pos m i) m 0%nat = i) by (intros i Hi; apply nth_error_nth_iff, pos_nth; assumption).
    generalize edges fac. clear - Hp. induction edges as [|[a b] r IH]; intros [|f q]; simpl; try reflexivity.
    rewrite IH. f_equal. unfold good. cbn [fst snd]. destruct (mem a m) eqn:Ea, (mem b m) eqn:Eb; simpl; try reflexivity.
    apply mem_iff in Ea, Eb. rewrite !Hp by assumption. reflexivity.
  Qed.

  (** from positions back to nodes *)
  Lemma back_to_nodes (x : nat -> R) phi : x (pos m mref) = 0 -> (forall y, cost items x <= cost items y) ->
    length phi = n -> (forall k i, nth_error m k = Some i -> nth_error phi i = Some (Fin (x k))) ->
    (forall i, (i < n)%nat -> ~ In i m -> nth_error phi i = Some NaN) ->
    least_squares n m mref (objective edges fac m err) phi.
  Proof.
    intros H0 Hmin HL Hin Hout. destruct (r_nodes _ _ _ _ _ _ Hreg) as [Hd Hm]. exists (fun i => x (pos m i)).
    assert (Ex : forall k, (k < N)%nat -> pos m (nth k m 0%nat) = k) by (intros k Hk; apply pos_inj; [assumption|apply nth_error_nth'; assumption]).
    assert (EJ : objective edges fac m err (fun i => x (pos m i)) = cost items x).
    { rewrite objective_items. apply Rsum_ext. intros it Hit. destruct (items_range it Hit). rewrite !Ex by assumption. reflexivity. }
    split; [assumption|]. split; [intros i Hi; apply Hin; apply pos_nth; assumption|]. split; [assumption|]. split; [assumption|].
    split; [intros g; rewrite EJ, objective_items; apply Hmin|].
    intros g Eg i Hi. rewrite EJ, objective_items in Eg.
    assert (U := min_unique items N (pos m mref) items_weight items_connected x _ Hmin Eg (pos m i) (pos_lt _ _ Hi)). cbv beta in U.
    rewrite (nth_error_nth_iff m (pos m i) i) in U by (apply pos_nth; assumption).
    rewrite (nth_error_nth_iff m (pos m mref) mref) in U by (apply pos_nth; assumption). lra.
  Qed.

  (** ** a region of a single node *)
  Lemma isolated_correct : (N <= 1)%nat -> exists phi, isolated n m = Ok phi /\ least_squares n m mref (objective edges fac m err) phi.
  Proof.
    intros HN. destruct (r_nodes _ _ _ _ _ _ Hreg) as [Hd Hm].
    assert (Em : m = [mref]) by (destruct m as [|u [|v l]]; [contradiction|destruct Hm as [->|[]]; reflexivity|simpl in HN; lia]).
    unfold isolated. assert (Hlt : (mref < n)%nat) by (apply nodes_lt; assumption).
    replace (np_get m 0) with (Ok mref) by (rewrite Em; reflexivity). cbn [bind]. unfold np_set. rewrite repeat_length.
    apply Nat.ltb_lt in Hlt as Hb. rewrite Hb. eexists. split; [reflexivity|].
    apply (back_to_nodes (fun _ => 0)); [reflexivity| |rewrite length_upd; apply repeat_length| |].
    - intros y. right. apply Rsum_ext. intros it Hit. destruct (items_range it Hit) as [Ha Hb']. rewrite Em in Ha, Hb'. simpl in Ha, Hb'.
      replace (ib it) with (ia it) by lia. ring.
    - intros [|k] i E; rewrite Em in E; simpl in E; [|destruct k; discriminate]. injection E as <-.
      rewrite nth_error_upd_eq by (rewrite repeat_length; assumption). xsimp. reflexivity.
    - intros i Hi Hn. rewrite nth_error_upd_neq; [apply nth_error_repeat_lt; assumption|]. intros ->. contradiction.
  Qed.
End Helper.
