(** * N-dimensional arrays: lemmas *)
From Coq Require Import List ZArith Bool Lia Arith.
From Verif Require Import Res Arr ArrLemmas Nd.
Import ListNotations.

Lemma prod_app s t : prod (s ++ t) = prod s * prod t.
Proof. induction s as [|n s IH]; simpl; [lia|]. rewrite IH. lia. Qed.

Lemma ravel_lt sh : forall ix, valid sh ix -> ravel sh ix < prod sh.
Proof.
  induction sh as [|n r IH]; intros ix H; inversion H as [|? i ? q Hi Hq]; subst; simpl; [lia|].
  specialize (IH q Hq). nia.
Qed.

Lemma valid_length sh ix : valid sh ix -> length ix = length sh.
Proof. intros H. induction H; simpl; congruence. Qed.

Lemma valid_app_inv s t ix : valid (s ++ t) ix -> exists i j, ix = i ++ j /\ valid s i /\ valid t j.
Proof. intros H. apply Forall2_app_inv_l in H as (i & j & H1 & H2 & ->). eauto. Qed.

Lemma valid_app s t i j : valid s i -> valid t j -> valid (s ++ t) (i ++ j).
Proof. apply Forall2_app. Qed.

Lemma ravel_app s t : forall i j, valid s i -> ravel (s ++ t) (i ++ j) = ravel s i * prod t + ravel t j.
Proof.
  induction s as [|n s IH]; intros i j H; inversion H as [|? x ? q Hx Hq]; subst; simpl; [reflexivity|].
  rewrite IH by assumption. rewrite prod_app. lia.
Qed.

Lemma valid_snoc_inv sh n ix : valid (sh ++ [n]) ix -> exists h k, ix = h ++ [k] /\ valid sh h /\ k < n.
Proof.
  intros H. apply valid_app_inv in H as (h & j & -> & H1 & H2). inversion H2 as [|? k ? q Hk Hq]; subst.
  inversion Hq; subst. eauto.
Qed.

Lemma valid_snoc sh n h k : valid sh h -> k < n -> valid (sh ++ [n]) (h ++ [k]).
Proof. intros H1 H2. apply valid_app; [assumption|]. constructor; [assumption|constructor]. Qed.

Lemma ravel_snoc sh n h k : valid sh h -> ravel (sh ++ [n]) (h ++ [k]) = ravel sh h * n + k.
Proof. intros H. rewrite ravel_app by assumption. simpl. lia. Qed.

Lemma length_flat_map_const {A B} (f : A -> list B) c l : (forall x, In x l -> length (f x) = c) ->
  length (flat_map f l) = length l * c.
Proof.
  induction l as [|x l IH]; intros H; simpl; [reflexivity|]. rewrite app_length, IH, H; auto.
  - left. reflexivity.
  - intros y Hy. apply H. right. assumption.
Qed.

Lemma length_all_idx sh : length (all_idx sh) = prod sh.
Proof.
  induction sh as [|n r IH]; [reflexivity|]. simpl.
  rewrite (length_flat_map_const _ (prod r)); [rewrite seq_length; reflexivity|].
  intros x _. rewrite map_length. assumption.
Qed.

Lemma nth_error_flat_map_const {A B} (f : A -> list B) c : forall l i j x y,
  (forall x, In x l -> length (f x) = c) -> nth_error l i = Some x -> nth_error (f x) j = Some y ->
  nth_error (flat_map f l) (i * c + j) = Some y.
Proof.
  induction l as [|z l IH]; intros [|i] j x y Hc Hi Hj; simpl in *; try discriminate.
  - injection Hi as ->. rewrite nth_error_app1; [assumption|]. eapply nth_error_lt; eauto.
  - rewrite nth_error_app2 by (rewrite (Hc z) by auto; lia). rewrite (Hc z) by auto.
    replace (c + i * c + j - c) with (i * c + j) by lia. eapply IH; eauto.
Qed.

Lemma nth_error_all_idx sh : forall ix, valid sh ix -> nth_error (all_idx sh) (ravel sh ix) = Some ix.
Proof.
  induction sh as [|n r IH]; intros ix H; inversion H as [|? i ? q Hi Hq]; subst; [reflexivity|]. simpl.
  apply (nth_error_flat_map_const _ _ _ _ _ i).
  - intros x _. rewrite map_length. apply length_all_idx.
  - rewrite (nth_error_nth' _ 0); [|rewrite seq_length; assumption]. rewrite seq_nth by assumption. reflexivity.
  - rewrite nth_error_map. rewrite (IH q Hq). reflexivity.
Qed.

Lemma in_all_idx sh : forall ix, In ix (all_idx sh) <-> valid sh ix.
Proof.
  induction sh as [|n r IH]; intros ix; simpl.
  - split; [intros [<-|[]]; constructor|intros H; inversion H; auto].
  - rewrite in_flat_map. split.
    + intros (i & Hi & H). apply in_map_iff in H as (q & <- & Hq). apply in_seq in Hi. constructor; [lia|]. apply IH; assumption.
    + intros H. inversion H as [|? i ? q Hi Hq]; subst. exists i. split; [apply in_seq; lia|]. apply in_map. apply IH. assumption.
Qed.

Lemma build_at {A} sh (f : list nat -> A) ix : valid sh ix -> at_ (build sh f) ix = Some (f ix).
Proof. intros H. unfold at_, build; simpl. rewrite nth_error_map, nth_error_all_idx by assumption. reflexivity. Qed.

Lemma build_wf {A} sh (f : list nat -> A) : wf (build sh f).
Proof. unfold wf, build; simpl. rewrite map_length. apply length_all_idx. Qed.

Lemma wf_at {A} (a : nd A) ix : wf a -> valid (shape a) ix -> exists x, at_ a ix = Some x.
Proof.
  intros Hw Hv. unfold at_. destruct (nth_error (elems a) (ravel (shape a) ix)) as [x|] eqn:E; [eauto|].
  apply nth_error_None in E. pose proof (ravel_lt _ _ Hv). unfold wf in Hw. lia.
Qed.

Lemma getd_at {A} (a : nd A) d ix : wf a -> valid (shape a) ix -> at_ a ix = Some (getd a d ix).
Proof.
  intros Hw Hv. unfold at_, getd. apply nth_error_nth'. rewrite Hw. apply ravel_lt. assumption.
Qed.

Lemma mapM_ok {A B} (f : A -> res B) l : (forall x, In x l -> exists y, f x = Ok y) ->
  exists ys, mapM f l = Ok ys /\ length ys = length l
    /\ forall i x, nth_error l i = Some x -> exists y, nth_error ys i = Some y /\ f x = Ok y.
Proof.
  induction l as [|x l IH]; intros H.
  - exists []. split; [reflexivity|]. split; [reflexivity|]. intros [|i] ? E; discriminate.
  - destruct (H x (or_introl eq_refl)) as [y Ey]. destruct IH as (ys & E & L & Hn); [intros; apply H; right; assumption|].
    simpl. rewrite Ey. cbn [bind]. rewrite E. cbn [bind]. exists (y :: ys). split; [reflexivity|]. split; [simpl; lia|].
    intros [|i] z Ez; simpl in Ez.
    + injection Ez as <-. exists y. auto.
    + apply Hn in Ez. exact Ez.
Qed.

Lemma mapM_inv {A B} (f : A -> res B) l ys : mapM f l = Ok ys ->
  length ys = length l /\ forall i x, nth_error l i = Some x -> exists y, nth_error ys i = Some y /\ f x = Ok y.
Proof.
  revert ys. induction l as [|x l IH]; intros ys E; simpl in E.
  - injection E as <-. split; [reflexivity|]. intros [|i] ? E; discriminate.
  - destruct (f x) as [y|] eqn:Ey; [|discriminate]. cbn [bind] in E. destruct (mapM f l) as [zs|] eqn:Ez; [|discriminate].
    cbn [bind] in E. injection E as <-. destruct (IH zs eq_refl) as [L H]. split; [simpl; lia|].
    intros [|i] z Hz; simpl in Hz; [injection Hz as <-; exists y; auto|apply H; assumption].
Qed.

Lemma buildM_ok {A} sh (f : list nat -> res A) : (forall ix, valid sh ix -> exists y, f ix = Ok y) ->
  exists a, buildM sh f = Ok a /\ shape a = sh /\ wf a
    /\ forall ix, valid sh ix -> exists y, at_ a ix = Some y /\ f ix = Ok y.
Proof.
  intros H. unfold buildM. destruct (mapM_ok f (all_idx sh)) as (ys & E & L & Hn).
  - intros ix Hin. apply H. apply in_all_idx. assumption.
  - rewrite E. cbn [bind]. eexists. split; [reflexivity|]. split; [reflexivity|]. split; [unfold wf; simpl; rewrite L; apply length_all_idx|].
    intros ix Hv. unfold at_; simpl. apply Hn. apply nth_error_all_idx. assumption.
Qed.
