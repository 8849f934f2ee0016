(** * Two-dimensional arrays as lists of rows *)
From Coq Require Import List ZArith Bool Lia.
From Verif Require Import Num Res Arr ArrLemmas Nd NdLemmas M_grid S_grid P_lib.
Import ListNotations.
Local Open Scope nat_scope.

(** l has n rows of m elements given by f *)
Definition tab {A} (l : list (list A)) (n m : nat) (f : nat -> nat -> A) : Prop :=
  length l = n /\ forall i, i < n -> exists r, nth_error l i = Some r /\ length r = m
    /\ forall j, j < m -> nth_error r j = Some (f i j).

Lemma nth_error_skipn {A} (l : list A) k i : nth_error (skipn k l) i = nth_error l (k + i).
Proof.
  revert l. induction k as [|k IH]; intros l; [reflexivity|]. destruct l as [|x l]; simpl.
  - destruct i; reflexivity.
  - apply IH.
Qed.

Lemma nth_error_firstn {A} (l : list A) k i : i < k -> nth_error (firstn k l) i = nth_error l i.
Proof.
  revert l i. induction k as [|k IH]; intros l i H; [lia|]. destruct l as [|x l]; [reflexivity|].
  destruct i as [|i]; [reflexivity|]. simpl. apply IH. lia.
Qed.

Lemma tab_ext {A} (l : list (list A)) n m f g : tab l n m f -> (forall i j, i < n -> j < m -> f i j = g i j) -> tab l n m g.
Proof.
  intros [L H] E. split; [assumption|]. intros i Hi. destruct (H i Hi) as (r & Hr & Lr & Hj).
  exists r. split; [assumption|]. split; [assumption|]. intros j Hlt. rewrite <- E by assumption. auto.
Qed.

Lemma tab_arange2 n m : tab (arange2 n m) n m (node m).
Proof.
  unfold arange2, node. split; [rewrite map_length, seq_length; reflexivity|]. intros i Hi.
  exists (seq (i * m) m). split.
  - rewrite nth_error_map. rewrite (nth_error_nth' _ 0) by (rewrite seq_length; assumption).
    rewrite seq_nth by assumption. reflexivity.
  - split; [apply seq_length|]. intros j Hj.
    rewrite (nth_error_nth' _ 0) by (rewrite seq_length; assumption). rewrite seq_nth by assumption. reflexivity.
Qed.

Lemma tab_skipn {A} (l : list (list A)) n m f k : tab l n m f -> tab (skipn k l) (n - k) m (fun i => f (i + k)).
Proof.
  intros [L H]. split; [rewrite skipn_length; lia|]. intros i Hi. destruct (H (i + k)) as (r & Hr & Lr & Hj); [lia|].
  exists r. rewrite nth_error_skipn. replace (k + i) with (i + k) by lia. auto.
Qed.

Lemma tab_firstn {A} (l : list (list A)) n m f k : k <= n -> tab l n m f -> tab (firstn k l) k m f.
Proof.
  intros Hk [L H]. split; [rewrite firstn_length; lia|]. intros i Hi. destruct (H i) as (r & Hr & Lr & Hj); [lia|].
  exists r. rewrite nth_error_firstn by assumption. auto.
Qed.

Lemma roll_length {A} s (l : list A) : length (roll s l) = length l.
Proof. unfold roll. rewrite app_length, skipn_length, firstn_length. lia. Qed.

(** position i of the rolled list holds the element from position p *)
Lemma roll_nth {A} s (l : list A) i p :
  i < length l -> p < length l -> (exists k, Z.of_nat p + s = Z.of_nat i + k * Z.of_nat (length l))%Z ->
  nth_error (roll s l) i = nth_error l p.
Proof.
  intros Hi Hp [k Hk]. unfold roll. set (n := length l) in *.
  assert (Hm := Z.mod_pos_bound s (Z.of_nat n) ltac:(lia)).
  pose proof (Z.div_mod s (Z.of_nat n) ltac:(lia)) as D.
  set (s' := (s mod Z.of_nat n)%Z) in *. set (q := (s / Z.of_nat n)%Z) in *.
  assert (Hkq : (Z.of_nat p + s' = Z.of_nat i + (k - q) * Z.of_nat n)%Z) by nia.
  assert (Hcase : (k - q = 0 \/ k - q = 1)%Z) by nia.
  assert (Hs : length (skipn (n - Z.to_nat s') l) = Z.to_nat s') by (rewrite skipn_length; fold n; lia).
  destruct (Nat.lt_ge_cases i (Z.to_nat s')) as [H|H].
  - rewrite nth_error_app1 by lia. rewrite nth_error_skipn. f_equal. destruct Hcase as [C|C]; rewrite C in Hkq; lia.
  - rewrite nth_error_app2 by lia. rewrite Hs. rewrite nth_error_firstn by lia. f_equal.
    destruct Hcase as [C|C]; rewrite C in Hkq; lia.
Qed.

(** predecessor in a cycle of n *)
Definition prev (n i : nat) : nat := match i with O => n - 1 | S k => k end.
Definition next (n i : nat) : nat := if Nat.eqb (S i) n then 0 else S i.

Lemma prev_lt n i : i < n -> prev n i < n.
Proof. destruct i; simpl; lia. Qed.

Lemma next_lt n i : i < n -> next n i < n.
Proof. unfold next. intros H. destruct (Nat.eqb_spec (S i) n); lia. Qed.

Lemma roll1_nth {A} (l : list A) i : i < length l -> nth_error (roll 1 l) i = nth_error l (prev (length l) i).
Proof.
  intros H. apply roll_nth; [assumption|apply prev_lt; assumption|].
  destruct i as [|i]; simpl prev; [exists 1%Z|exists 0%Z]; lia.
Qed.

Lemma rollm1_nth {A} (l : list A) i : i < length l -> nth_error (roll (-1) l) i = nth_error l (next (length l) i).
Proof.
  intros H. apply roll_nth; [assumption|apply next_lt; assumption|]. unfold next.
  destruct (Nat.eqb_spec (S i) (length l)); [exists (-1)%Z|exists 0%Z]; lia.
Qed.

Lemma tab_roll {A} (l : list (list A)) n m f : tab l n m f -> tab (roll 1 l) n m (fun i => f (prev n i)).
Proof.
  intros [L H]. split; [rewrite roll_length; assumption|]. intros i Hi. rewrite roll1_nth by lia. rewrite L.
  destruct (H (prev n i) (prev_lt n i Hi)) as (r & Hr & Lr & Hj). exists r. auto.
Qed.

Lemma tab_map {A B} (g : list A -> list B) (l : list (list A)) n m m' f f' : tab l n m f ->
  (forall i r, i < n -> length r = m -> (forall j, j < m -> nth_error r j = Some (f i j)) ->
     length (g r) = m' /\ forall j, j < m' -> nth_error (g r) j = Some (f' i j)) ->
  tab (map g l) n m' f'.
Proof.
  intros [L H] Hg. split; [rewrite map_length; assumption|]. intros i Hi. destruct (H i Hi) as (r & Hr & Lr & Hj).
  exists (g r). rewrite nth_error_map, Hr. split; [reflexivity|]. exact (Hg i r Hi Lr Hj).
Qed.

Lemma tab_map_skipn {A} (l : list (list A)) n m f k : tab l n m f ->
  tab (map (skipn k) l) n (m - k) (fun i j => f i (j + k)).
Proof.
  intros H. eapply tab_map; [exact H|]. intros i r Hi Lr Hj. split; [rewrite skipn_length; lia|].
  intros j Hlt. rewrite nth_error_skipn. replace (k + j) with (j + k) by lia. apply Hj. lia.
Qed.

Lemma tab_map_roll {A} (l : list (list A)) n m f : tab l n m f -> tab (map (roll 1) l) n m (fun i j => f i (prev m j)).
Proof.
  intros H. eapply tab_map; [exact H|]. intros i r Hi Lr Hj. split; [rewrite roll_length; assumption|].
  intros j Hlt. rewrite roll1_nth by lia. rewrite Lr. apply Hj. apply prev_lt. assumption.
Qed.

Lemma tab_map_rollm1 {A} (l : list (list A)) n m f : tab l n m f -> tab (map (roll (-1)) l) n m (fun i j => f i (next m j)).
Proof.
  intros H. eapply tab_map; [exact H|]. intros i r Hi Lr Hj. split; [rewrite roll_length; assumption|].
  intros j Hlt. rewrite rollm1_nth by lia. rewrite Lr. apply Hj. apply next_lt. assumption.
Qed.

Lemma bound_nonneg {A} (v : list A) h : (0 <= h)%Z -> bound v h = Z.to_nat h.
Proof. intros H. unfold bound. destruct (Z.ltb_spec h 0); [lia|reflexivity]. Qed.

Lemma tab_map_upto {A} (l : list (list A)) n m f h : (0 <= h <= Z.of_nat m)%Z -> tab l n m f ->
  tab (map (fun r => upto r h) l) n (Z.to_nat h) f.
Proof.
  intros Hh H. eapply tab_map; [exact H|]. intros i r Hi Lr Hj. unfold upto. rewrite bound_nonneg by lia.
  split; [rewrite firstn_length; lia|]. intros j Hlt. rewrite nth_error_firstn by assumption. apply Hj. lia.
Qed.

Lemma tab_at2 {A} (l : list (list A)) n m f i j : tab l n m f -> i < n -> j < m -> at2 l i j = Some (f i j).
Proof. intros [L H] Hi Hj. unfold at2. destruct (H i Hi) as (r & -> & _ & Hr). auto. Qed.

Lemma tab_shape {A} (l : list (list A)) n m f : tab l n m f -> has_shape l n m.
Proof.
  intros [L H]. split; [assumption|]. intros r Hin. apply In_nth_error in Hin as [i Hi].
  assert (Hlt : i < n) by (rewrite <- L; apply nth_error_Some; congruence).
  destruct (H i Hlt) as (r' & Hr & Lr & _). congruence.
Qed.

Lemma tab_concat_length {A} (l : list (list A)) n m f : tab l n m f -> length (concat l) = n * m.
Proof.
  intros H. apply tab_shape in H as [L H].
  revert n L. induction l as [|r l IH]; intros n L; simpl in *; [subst; reflexivity|].
  rewrite app_length, (IH (fun r Hr => H r (or_intror Hr)) (length l) eq_refl), (H r (or_introl eq_refl)). subst. simpl. lia.
Qed.

Lemma nth_error_concat {A} m : forall (l : list (list A)) i j r x,
  (forall r, In r l -> length r = m) -> nth_error l i = Some r -> nth_error r j = Some x ->
  nth_error (concat l) (i * m + j) = Some x.
Proof.
  induction l as [|z l IH]; intros [|i] j r x Hc Hi Hj; simpl in *; try discriminate.
  - injection Hi as ->. rewrite nth_error_app1; [assumption|]. apply nth_error_Some. congruence.
  - rewrite nth_error_app2 by (rewrite (Hc z) by auto; lia). rewrite (Hc z) by auto.
    replace (m + i * m + j - m) with (i * m + j) by lia. eapply IH; eauto.
Qed.

Lemma tab_concat {A} (l : list (list A)) n m f i j : tab l n m f -> i < n -> j < m ->
  nth_error (concat l) (node m i j) = Some (f i j).
Proof.
  intros H Hi Hj. unfold node. destruct (tab_shape _ _ _ _ H) as [_ Hs]. destruct H as [L H].
  destruct (H i Hi) as (r & Hr & Lr & Hx). eapply nth_error_concat; eauto.
Qed.

Lemma node_inv m k n : k < n * m -> exists i j, i < n /\ j < m /\ k = node m i j.
Proof.
  intros H. unfold node. assert (m <> 0) by (intros ->; lia). exists (k / m), (k mod m).
  pose proof (Nat.div_mod k m). pose proof (Nat.mod_upper_bound k m).
  split; [apply Nat.div_lt_upper_bound; lia|]. split; lia.
Qed.

Lemma node_inj m i j i' j' : j < m -> j' < m -> node m i j = node m i' j' -> i = i' /\ j = j'.
Proof. unfold node. intros Hj Hj' E. assert (i = i') by nia. split; [assumption|subst; lia]. Qed.

Lemma node_lt n m i j : i < n -> j < m -> node m i j < n * m.
Proof. unfold node. nia. Qed.

Lemma tab_of_shape {A} (l : list (list A)) n m (d : A) : has_shape l n m ->
  tab l n m (fun i j => match at2 l i j with Some x => x | None => d end).
Proof.
  intros [L H]. split; [assumption|]. intros i Hi.
  destruct (nth_error l i) as [r|] eqn:E; [|apply nth_error_None in E; lia].
  exists r. split; [reflexivity|]. assert (Lr : length r = m) by (apply H; eapply nth_error_In; eauto).
  split; [assumption|]. intros j Hj. unfold at2. rewrite E.
  destruct (nth_error r j) eqn:E2; [reflexivity|]. apply nth_error_None in E2. lia.
Qed.
