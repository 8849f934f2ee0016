(** * Selection by masks and scattered assignment *)
From Coq Require Import List ZArith Bool Lia FinFun.
From Verif Require Import Num Res Arr ArrLemmas Nd NdLemmas M_grid M_xgcm P_lib P_tab P_grid.
Import ListNotations.
Local Open Scope nat_scope.

Lemma select_cons {A} g good (y : A) x : select (g :: good) (y :: x) = (if g then [y] else []) ++ select good x.
Proof. unfold select. simpl. destruct g; reflexivity. Qed.

Lemma select_app {A} g1 g2 : forall (x1 x2 : list A), length g1 = length x1 ->
  select (g1 ++ g2) (x1 ++ x2) = select g1 x1 ++ select g2 x2.
Proof.
  induction g1 as [|g g1 IH]; intros [|y x1] x2 L; simpl in L; try discriminate; [reflexivity|].
  simpl app. rewrite !select_cons, IH by lia. rewrite app_assoc. reflexivity.
Qed.

Lemma select_map {A B} (f : A -> B) good : forall x, select good (map f x) = map f (select good x).
Proof.
  induction good as [|g good IH]; intros [|y x]; try reflexivity. simpl map. rewrite !select_cons, IH, map_app.
  destruct g; reflexivity.
Qed.

Lemma flatnonzero_cons g good : flatnonzero (g :: good) = (if g then [0] else []) ++ map S (flatnonzero good).
Proof.
  unfold flatnonzero. simpl length. simpl seq. rewrite select_cons. f_equal.
  rewrite <- seq_shift, select_map. reflexivity.
Qed.

(** the selected elements are those at the positions of flatnonzero *)
Lemma select_nth {A} good : forall (x : list A) k, length x = length good ->
  nth_error (select good x) k = match nth_error (flatnonzero good) k with Some p => nth_error x p | None => None end.
Proof.
  induction good as [|g good IH]; intros [|y x] k L; simpl in L; try discriminate; [destruct k; reflexivity|].
  rewrite select_cons, flatnonzero_cons. destruct g; simpl.
  - destruct k as [|k]; [reflexivity|]. simpl. rewrite IH by lia. rewrite nth_error_map.
    destruct (nth_error (flatnonzero good) k); reflexivity.
  - rewrite IH by lia. rewrite nth_error_map. destruct (nth_error (flatnonzero good) k); reflexivity.
Qed.

Lemma in_flatnonzero good p : In p (flatnonzero good) <-> nth_error good p = Some true.
Proof.
  revert p. induction good as [|g good IH]; intros p; [simpl; destruct p; split; [intros []|discriminate|intros []|discriminate]|].
  rewrite flatnonzero_cons, in_app_iff, in_map_iff. destruct p as [|p]; simpl.
  - split; [intros [H|(q & H & _)]; [destruct g; [reflexivity|destruct H]|discriminate]|].
    intros E. injection E as ->. left. left. reflexivity.
  - rewrite <- IH. split.
    + intros [H|(q & H & Hq)]; [destruct g; [destruct H as [H|[]]; discriminate|destruct H]|injection H as ->; assumption].
    + intros H. right. exists p. auto.
Qed.

Lemma nodup_flatnonzero good : NoDup (flatnonzero good).
Proof.
  induction good as [|g good IH]; [constructor|]. rewrite flatnonzero_cons. destruct g; simpl.
  - constructor; [rewrite in_map_iff; intros (q & H & _); discriminate|]. apply Injective_map_NoDup; [intros x y; congruence|assumption].
  - apply Injective_map_NoDup; [intros x y; congruence|assumption].
Qed.

Lemma flatnonzero_app g1 g2 : flatnonzero (g1 ++ g2) = flatnonzero g1 ++ map (Nat.add (length g1)) (flatnonzero g2).
Proof.
  unfold flatnonzero. rewrite app_length, seq_app. rewrite select_app by (rewrite seq_length; reflexivity). f_equal.
  simpl. assert (E : seq (length g1) (length g2) = map (Nat.add (length g1)) (seq 0 (length g2))).
  { generalize (length g2). intros m. generalize (length g1). intros k. clear.
    rewrite <- (Nat.add_0_r k) at 1. generalize 0. induction m as [|m IH]; intros c; simpl; [reflexivity|]. f_equal.
    rewrite <- IH. f_equal. lia. }
  rewrite E. apply select_map.
Qed.

Lemma length_select {A} good (x : list A) : length x = length good -> length (select good x) = length (flatnonzero good).
Proof.
  revert x. induction good as [|g good IH]; intros [|y x] L; simpl in L; try discriminate; [reflexivity|].
  rewrite select_cons, flatnonzero_cons, !app_length, map_length, IH by lia. destruct g; reflexivity.
Qed.

Lemma put_ok {A} (d : A) (pos : list nat) (v : list A) N : length v = length pos -> NoDup pos -> (forall p, In p pos -> p < N) ->
  exists x, put (repeat d N) pos v = Ok x /\ length x = N
    /\ (forall k p, nth_error pos k = Some p -> nth_error x p = nth_error v k)
    /\ (forall p, p < N -> ~ In p pos -> nth_error x p = Some d).
Proof.
  intros L ND Hin. unfold put, fit. rewrite L, Nat.eqb_refl. cbn [bind].
  assert (G : forall (pos : list nat) (v x0 : list A), length v = length pos -> NoDup pos -> (forall p, In p pos -> p < length x0) ->
    exists x, for_each (combine pos v) (fun pv x => set x (fst pv) (snd pv)) x0 = Ok x /\ length x = length x0
      /\ (forall k p, nth_error pos k = Some p -> nth_error x p = nth_error v k)
      /\ (forall p, ~ In p pos -> nth_error x p = nth_error x0 p)).
  { clear. induction pos as [|p pos IH]; intros [|y v] x0 L ND Hin; simpl in L; try discriminate.
    - exists x0. split; [reflexivity|]. split; [reflexivity|]. split; [intros [|k] q H; discriminate|auto].
    - inversion ND as [|? ? Hp ND']; subst.
      destruct (IH v (upd x0 p y)) as (x & E & Lx & H1 & H2); [lia|assumption|intros q Hq; rewrite length_upd; apply Hin; right; assumption|].
      exists x. simpl combine. cbn [for_each fst snd]. unfold set.
      replace (Nat.ltb p (length x0)) with true by (symmetry; apply Nat.ltb_lt; apply Hin; left; reflexivity). cbn [bind].
      split; [assumption|]. rewrite length_upd in Lx. split; [assumption|]. split.
      + intros [|k] q Hk; simpl in Hk.
        * injection Hk as <-. rewrite H2 by assumption. simpl. apply nth_error_upd_eq. apply Hin. left. reflexivity.
        * apply H1. assumption.
      + intros q Hq. rewrite H2 by (intros C; apply Hq; right; assumption). apply nth_error_upd_neq.
        intros ->. apply Hq. left. reflexivity. }
  destruct (G pos v (repeat d N) L ND) as (x & E & Lx & H1 & H2); [intros p Hp; rewrite repeat_length; auto|].
  exists x. split; [assumption|]. rewrite repeat_length in Lx. split; [assumption|]. split; [assumption|].
  intros p Hp Hn. rewrite H2 by assumption. rewrite (nth_error_nth' _ d) by (rewrite repeat_length; assumption). f_equal. apply nth_repeat.
Qed.
