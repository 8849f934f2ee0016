(** * Lemmas on arrays and loops *)
From Coq Require Import List ZArith Bool Lia.
From Verif Require Import Res Arr.
Import ListNotations.

Lemma get_ok {A} (a : list A) i x : nth_error a i = Some x -> get a i = Ok x.
Proof. unfold get. intros ->. reflexivity. Qed.

Lemma get_inv {A} (a : list A) i x : get a i = Ok x -> nth_error a i = Some x.
Proof. unfold get. destruct (nth_error a i); congruence. Qed.

Lemma get_lt {A} (a : list A) i : i < length a -> exists x, get a i = Ok x /\ nth_error a i = Some x.
Proof.
  intros H. unfold get. destruct (nth_error a i) eqn:E; eauto.
  apply nth_error_None in E. lia.
Qed.

Lemma get_nth {A} (a : list A) i d : i < length a -> get a i = Ok (nth i a d).
Proof.
  intros H. unfold get. rewrite (nth_error_nth' a d H). reflexivity.
Qed.

Lemma length_upd {A} (a : list A) i x : length (upd a i x) = length a.
Proof. revert i. induction a; intros [|i]; simpl; auto. Qed.

Lemma nth_error_upd_eq {A} (a : list A) i x : i < length a -> nth_error (upd a i x) i = Some x.
Proof. revert i. induction a; intros [|i]; simpl; intros H; try lia; auto. apply IHa. lia. Qed.

Lemma nth_error_upd_neq {A} (a : list A) i j x : i <> j -> nth_error (upd a i x) j = nth_error a j.
Proof.
  revert i j. induction a; intros [|i] [|j]; simpl; intros H; try lia; auto.
Qed.

Lemma nth_upd_eq {A} (a : list A) i x d : i < length a -> nth i (upd a i x) d = x.
Proof.
  intros H. apply nth_error_nth. apply nth_error_upd_eq. assumption.
Qed.

Lemma nth_upd_neq {A} (a : list A) i j x d : i <> j -> nth j (upd a i x) d = nth j a d.
Proof.
  revert i j. induction a; intros [|i] [|j]; simpl; intros H; try lia; auto.
Qed.

Lemma upd_oob {A} (a : list A) i x : length a <= i -> upd a i x = a.
Proof. revert i. induction a; intros [|i]; simpl; intros H; try lia; auto. f_equal. apply IHa. lia. Qed.

Lemma set_ok {A} (a : list A) i x : i < length a -> set a i x = Ok (upd a i x).
Proof. intros H. unfold set. apply Nat.ltb_lt in H. rewrite H. reflexivity. Qed.

Lemma set_inv {A} (a : list A) i x a' : set a i x = Ok a' -> i < length a /\ a' = upd a i x.
Proof.
  unfold set. destruct (Nat.ltb_spec i (length a)); [|congruence].
  intros E. injection E as <-. auto.
Qed.

Lemma for_each_app {X S} (l1 l2 : list X) (body : X -> S -> res S) s :
  for_each (l1 ++ l2) body s = bind (for_each l1 body s) (for_each l2 body).
Proof.
  revert s. induction l1; intros s; simpl; auto.
  destruct (body a s); simpl; auto.
Qed.

Lemma for_range_S {S} a b (body : nat -> S -> res S) s : a <= b ->
  for_range a (Datatypes.S b) body s = bind (for_range a b body s) (body b).
Proof.
  intros H. unfold for_range.
  replace (Datatypes.S b - a) with ((b - a) + 1) by lia.
  rewrite seq_app, for_each_app.
  replace (a + (b - a)) with b by lia.
  destruct (for_each (seq a (b - a)) body s) as [a0|]; simpl; auto.
  destruct (body b a0); reflexivity.
Qed.

Lemma for_range_nil {S} a b (body : nat -> S -> res S) s : b <= a -> for_range a b body s = Ok s.
Proof. intros H. unfold for_range. replace (b - a) with 0 by lia. reflexivity. Qed.

Lemma for_range_inv {S} (P : nat -> S -> Prop) a b (body : nat -> S -> res S) s :
  a <= b -> P a s ->
  (forall i s, a <= i < b -> P i s -> exists s', body i s = Ok s' /\ P (Datatypes.S i) s') ->
  exists s', for_range a b body s = Ok s' /\ P b s'.
Proof.
  intros Hab H0 Hstep. unfold for_range.
  assert (H : forall n i s, P i s -> a <= i -> i + n = b ->
     exists s', for_each (seq i n) body s = Ok s' /\ P b s').
  { induction n; intros i s' Hi Hai Hin; simpl.
    - exists s'. split; auto. replace b with i by lia. assumption.
    - destruct (Hstep i s') as (s'' & E & Hs''); [lia|assumption|].
      rewrite E. simpl. apply (IHn (Datatypes.S i)); auto; lia. }
  apply H; auto; lia.
Qed.

(** [for i in range(a,b): d[i] = v(i)] *)
Lemma for_range_fill {A} (body : nat -> list A -> res (list A)) (v : nat -> A) a b (d : list A) :
  a <= b -> b <= length d ->
  (forall i d', a <= i < b -> length d' = length d -> body i d' = set d' i (v i)) ->
  exists d', for_range a b body d = Ok d'
    /\ length d' = length d
    /\ (forall i, a <= i < b -> nth_error d' i = Some (v i))
    /\ (forall i, ~ (a <= i < b) -> nth_error d' i = nth_error d i).
Proof.
  intros Hab Hb Hg.
  destruct (for_range_inv (fun n d' => length d' = length d
      /\ (forall i, a <= i < n -> nth_error d' i = Some (v i))
      /\ (forall i, ~ (a <= i < n) -> nth_error d' i = nth_error d i))
      a b body d) as (d' & E & H1 & H2 & H3); auto.
  - repeat split; auto. intros; lia.
  - intros i s Hi (H1 & H2 & H3). rewrite Hg by assumption.
    rewrite set_ok by lia. eexists. split; [reflexivity|].
    rewrite length_upd. split; [assumption|]. split.
    + intros j Hj. destruct (Nat.eq_dec i j) as [->|Hne].
      * apply nth_error_upd_eq. lia.
      * rewrite nth_error_upd_neq by assumption. apply H2. lia.
    + intros j Hj. rewrite nth_error_upd_neq by lia. apply H3. lia.
  - exists d'. auto.
Qed.

Lemma nth_error_repeat_lt {A} (x : A) n i : i < n -> nth_error (repeat x n) i = Some x.
Proof. revert i. induction n; intros [|i] H; simpl; try lia; auto. apply IHn. lia. Qed.

Lemma nth_error_combine {A B} (l : list A) (l' : list B) i :
  nth_error (combine l l') i =
  match nth_error l i, nth_error l' i with Some a, Some b => Some (a, b) | _, _ => None end.
Proof.
  revert l' i. induction l; intros [|b l'] [|i]; simpl; auto.
  - destruct (nth_error l i); reflexivity.
Qed.

Lemma nth_error_ext {A} (l l' : list A) : (forall i, nth_error l i = nth_error l' i) -> l = l'.
Proof.
  revert l'. induction l; intros [|b l'] H; auto.
  - specialize (H 0). discriminate.
  - specialize (H 0). discriminate.
  - f_equal; [specialize (H 0); simpl in H; congruence|]. apply IHl. intros i. apply (H (Datatypes.S i)).
Qed.

Lemma nth_error_skipn {A} (l : list A) n i : nth_error (skipn n l) i = nth_error l (n + i).
Proof. revert l. induction n; intros [|a l]; simpl; auto. destruct i; reflexivity. Qed.

Lemma nth_error_firstn {A} (l : list A) n i : i < n -> nth_error (firstn n l) i = nth_error l i.
Proof. revert l i. induction n; intros [|a l] [|i] H; simpl; auto; try lia. apply IHn. lia. Qed.

Lemma nth_error_slice {A} (l : list A) k K i : i < K - k -> nth_error (slice l k K) i = nth_error l (k + i).
Proof. intros H. unfold slice. rewrite nth_error_firstn by assumption. apply nth_error_skipn. Qed.

Lemma length_slice {A} (l : list A) k K : K <= length l -> length (slice l k K) = K - k.
Proof. intros H. unfold slice. rewrite firstn_length, skipn_length. lia. Qed.

Lemma nth_error_nth_iff {A} (l : list A) i x d : nth_error l i = Some x -> nth i l d = x.
Proof. apply nth_error_nth. Qed.

Lemma nth_error_lt {A} (l : list A) i x : nth_error l i = Some x -> i < length l.
Proof. intros H. apply nth_error_Some. congruence. Qed.

(** [for i in range(a,b): d[i] = g(i)] with a computation that may fail *)
Lemma for_range_fill_inv {A} (body : nat -> list A -> res (list A)) (g : nat -> res A) a b (d d' : list A) :
  (forall i e, a <= i < b -> length e = length d -> body i e = bind (g i) (fun v => set e i v)) ->
  for_range a b body d = Ok d' ->
  length d' = length d
  /\ (forall i, a <= i < b -> exists v, g i = Ok v /\ nth_error d' i = Some v)
  /\ (forall i, ~ (a <= i < b) -> nth_error d' i = nth_error d i).
Proof.
  intros Hg. destruct (Nat.le_gt_cases b a) as [Hab|Hab].
  { rewrite for_range_nil by assumption. intros E; injection E as <-.
    repeat split; intros; lia || reflexivity. }
  revert d'. induction b as [|b IH]; intros d' E; [lia|].
  rewrite for_range_S in E by lia.
  destruct (for_range a b body d) as [e|] eqn:Ee; cbn [bind] in E; [|discriminate].
  assert (Hpre : length e = length d
     /\ (forall i, a <= i < b -> exists v, g i = Ok v /\ nth_error e i = Some v)
     /\ (forall i, ~ (a <= i < b) -> nth_error e i = nth_error d i)).
  { destruct (Nat.eq_dec a b) as [->|].
    - rewrite for_range_nil in Ee by lia. injection Ee as ->. repeat split; intros; lia || reflexivity.
    - apply IH; auto; [|lia]. intros. apply Hg; lia. }
  destruct Hpre as (P1 & P2 & P3).
  rewrite Hg in E by lia. destruct (g b) as [v|] eqn:Ev; cbn [bind] in E; [|discriminate].
  apply set_inv in E as [Hlt ->]. rewrite length_upd. split; [assumption|]. split.
  - intros i Hi. destruct (Nat.eq_dec b i) as [<-|Hne].
    + exists v. split; [assumption|]. apply nth_error_upd_eq. assumption.
    + rewrite nth_error_upd_neq by assumption. apply P2. lia.
  - intros i Hi. rewrite nth_error_upd_neq by lia. apply P3. lia.
Qed.

Ltac bind_inv H :=
  match type of H with
  | bind ?e _ = Ok _ =>
      let v := fresh "v" in let E := fresh "E" in
      destruct e as [v|] eqn:E; cbn [bind] in H; [|discriminate H]
  end.
