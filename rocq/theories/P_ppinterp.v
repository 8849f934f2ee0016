(** * Proofs about ppinterp/lib.py and ppinterp/ppinterp.py *)
From Coq Require Import ZArith Bool Reals Lra Lia List.
From Verif Require Import Num XR Res Arr ArrLemmas XRlemmas M_numpy M_ppinterp P_numpy S_interp.
Import ListNotations.

Section Generic.
  Context {F : Type} {N : Num F}.

  Lemma first_index_spec (q : nat -> bool) (p : nat -> res bool) n a dflt :
    (forall i, a <= i < a + n -> p i = Ok (q i)) ->
    exists r, first_index (seq a n) p dflt = Ok r
      /\ ((r = dflt /\ forall i, a <= i < a + n -> q i = false)
          \/ (a <= r < a + n /\ q r = true /\ forall i, a <= i < r -> q i = false)).
  Proof.
    revert a. induction n as [|n IH]; intros a Hp; simpl.
    - exists dflt. split; [reflexivity|]. left. split; auto. intros; lia.
    - rewrite Hp by lia. simpl. destruct (q a) eqn:E.
      + exists a. split; [reflexivity|]. right. split; [lia|]. split; [assumption|]. intros; lia.
      + destruct (IH (S a)) as (r & E' & H).
        { intros i Hi. apply Hp. lia. }
        exists r. split; [assumption|].
        destruct H as [[-> H]|(H1 & H2 & H3)].
        * left. split; [reflexivity|]. intros i Hi.
          destruct (Nat.eq_dec i a); [subst; assumption|apply H; lia].
        * right. repeat split; auto; try lia. intros i Hi.
          destruct (Nat.eq_dec i a); [subst; assumption|apply H3; lia].
  Qed.

  (** common part of valid_range_1 and valid_range_1_two *)
  Lemma valid_range_gen (n : nat) (qf qn : nat -> bool) (pf pn : nat -> res bool) :
    (forall i, i < n -> pf i = Ok (qf i)) ->
    (forall i, i < n -> pn i = Ok (qn i)) ->
    exists k K,
      bind (first_index (seq 0 n) pf n) (fun k =>
        bind (first_index (seq (k + 1) (n - (k + 1))) pn n) (fun K => Ok (k, K)))
      = Ok (k, K)
      /\ k <= K <= n
      /\ (forall i, i < k -> qf i = false)
      /\ (k < n -> qf k = true /\ k < K)
      /\ (forall i, k < i < K -> qn i = false)
      /\ (K < n -> qn K = true /\ k < K).
  Proof.
    intros Hf Hn.
    destruct (first_index_spec qf pf n 0 n) as (k & Ek & Hk); [intros; apply Hf; lia|].
    rewrite Ek. cbn [bind].
    destruct (first_index_spec qn pn (n - (k + 1)) (k + 1) n) as (K & EK & HK).
    { intros i Hi. apply Hn. lia. }
    rewrite EK. cbn [bind]. exists k, K. split; [reflexivity|].
    destruct Hk as [[-> Hk]|(Hk1 & Hk2 & Hk3)]; destruct HK as [[-> HK]|(HK1 & HK2 & HK3)]; try lia.
    - repeat split; try lia. intros. apply Hk. lia.
    - repeat split; try lia; auto; intros; try lia.
      + apply Hk3. lia.
      + apply HK. lia.
    - repeat split; try lia; auto; intros; try lia.
      + apply Hk3. lia.
      + apply HK3. lia.
  Qed.

  Lemma valid_range_1_spec (X : list F) :
    exists k K, valid_range_1 X = Ok (k, K)
      /\ k <= K <= length X
      /\ (forall i, i < k -> isfinite (nth i X nan) = false)
      /\ (k < length X -> isfinite (nth k X nan) = true /\ k < K)
      /\ (forall i, k < i < K -> isnan (nth i X nan) = false)
      /\ (K < length X -> isnan (nth K X nan) = true /\ k < K).
  Proof.
    unfold valid_range_1.
    apply (valid_range_gen (length X) (fun i => isfinite (nth i X nan)) (fun i => isnan (nth i X nan))).
    - intros i Hi. rewrite (get_nth X i nan Hi). reflexivity.
    - intros i Hi. rewrite (get_nth X i nan Hi). reflexivity.
  Qed.

  Lemma valid_range_1_two_spec (X Y : list F) : length X <= length Y ->
    exists k K, valid_range_1_two X Y = Ok (k, K)
      /\ k <= K <= length X
      /\ (forall i, i < k -> isfinite (nth i X nan) = false \/ isfinite (nth i Y nan) = false)
      /\ (k < length X -> isfinite (nth k X nan) = true /\ isfinite (nth k Y nan) = true /\ k < K)
      /\ (forall i, k < i < K -> isnan (nth i X nan) = false /\ isnan (nth i Y nan) = false)
      /\ (K < length X -> (isnan (nth K X nan) = true \/ isnan (nth K Y nan) = true) /\ k < K).
  Proof.
    intros Hlen. unfold valid_range_1_two.
    destruct (valid_range_gen (length X)
      (fun i => isfinite (nth i X nan) && isfinite (nth i Y nan))
      (fun i => isnan (nth i X nan) || isnan (nth i Y nan))
      (fun i => let! x := get X i in
                if isfinite x then let! y := get Y i in Ok (isfinite y) else Ok false)
      (fun i => let! x := get X i in
                if isnan x then Ok true else let! y := get Y i in Ok (isnan y)))
      as (k & K & E & H1 & H2 & H3 & H4 & H5).
    - intros i Hi. rewrite (get_nth X i nan Hi). cbn [bind].
      rewrite (get_nth Y i nan) by lia. destruct (isfinite (nth i X nan)); reflexivity.
    - intros i Hi. rewrite (get_nth X i nan Hi). cbn [bind].
      rewrite (get_nth Y i nan) by lia. destruct (isnan (nth i X nan)); reflexivity.
    - exists k, K. split; [exact E|]. split; [assumption|].
      split. { intros i Hi. specialize (H2 i Hi). apply andb_false_iff in H2. assumption. }
      split. { intros Hk. destruct (H3 Hk) as [H ?]. apply andb_true_iff in H. tauto. }
      split. { intros i Hi. specialize (H4 i Hi). apply orb_false_iff in H4. assumption. }
      intros HK. destruct (H5 HK) as [H ?]. apply orb_true_iff in H. tauto.
  Qed.

  (** *** diff_1d_samesize *)
  Lemma diff_1d_samesize_spec (junk : F) (x : list F) : x <> [] ->
    exists d, diff_1d_samesize junk x = Ok d
      /\ length d = length x
      /\ forall i, i < length x ->
          nth_error d i = Some (if Nat.eqb (S i) (length x) then nan
                                else sub (nth (S i) x nan) (nth i x nan)).
  Proof.
    intros Hne. unfold diff_1d_samesize.
    destruct (for_range_fill (fun i d => let! xi := get x i in set d i (sub (nth (S i) x junk) xi))
       (fun i => sub (nth (S i) x junk) (nth i x nan)) 0 (length x) (repeat junk (length x)))
       as (d & E & Hl & Hin & Hout).
    - lia.
    - rewrite repeat_length. lia.
    - intros i d' Hi _. rewrite (get_nth x i nan) by lia. reflexivity.
    - rewrite E. cbn [bind]. rewrite repeat_length in Hl.
      destruct (length x) as [|m] eqn:En; [destruct x; [congruence|discriminate]|].
      rewrite set_ok by lia. eexists. split; [reflexivity|].
      rewrite length_upd. split; [assumption|].
      intros i Hi. destruct (Nat.eqb_spec (S i) (S m)) as [He|He].
      + injection He as ->. apply nth_error_upd_eq. lia.
      + rewrite nth_error_upd_neq by lia. rewrite Hin by lia. do 2 f_equal.
        apply nth_indep. lia.
  Qed.

  (** The result does not depend on the out-of-range read. *)
  Lemma diff_1d_samesize_junk (j j' : F) (x : list F) :
    diff_1d_samesize j x = diff_1d_samesize j' x.
  Proof.
    destruct x as [|a x]; [reflexivity|].
    destruct (diff_1d_samesize_spec j (a :: x)) as (d & -> & Hl & Hd); [congruence|].
    destruct (diff_1d_samesize_spec j' (a :: x)) as (d' & -> & Hl' & Hd'); [congruence|].
    f_equal. apply nth_error_ext. intros i.
    destruct (Nat.lt_ge_cases i (length (a :: x))) as [Hi|Hi].
    - rewrite Hd, Hd' by assumption. reflexivity.
    - rewrite (proj2 (nth_error_None d i)), (proj2 (nth_error_None d' i)) by lia. reflexivity.
  Qed.

  Lemma diff_1d_samesize_empty (j : F) : diff_1d_samesize j [] = Err OutOfBounds.
  Proof. reflexivity. Qed.
End Generic.

(** ** Evaluation of the polynomial on finite numbers *)
Local Open Scope R_scope.

Lemma fold_left_fin {A} (l : list A) (f : xr -> A -> xr) (g : R -> A -> R) y :
  (forall y a, In a l -> f (Fin y) a = Fin (g y a)) ->
  fold_left f l (Fin y) = Fin (fold_left g l y).
Proof.
  revert y. induction l; intros y H; simpl; auto.
  rewrite H by (left; reflexivity). apply IHl. intros. apply H. right. assumption.
Qed.

Lemma pval_fin x (C : list R) d : pval (Fin x) (map Fin C) d = Fin (pval x C d).
Proof.
  unfold pval. destruct d as [|d].
  - change (@lit xr _ 0 0) with (Fin (Rlit 0 0)). change (@lit R _ 0 0) with (Rlit 0 0).
    generalize (Rlit 0 0). induction C; intros y; simpl; auto.
  - rewrite map_length. change (@lit xr _ 0 0) with (Fin (Rlit 0 0)). change (@lit R _ 0 0) with (Rlit 0 0).
    apply fold_left_fin. intros y o Ho. apply in_seq in Ho.
    assert (E : fold_left (fun p a => mul p (of_nat a)) (seq (length C - o - S d) (S d)) (@lit xr _ 1 0)
        = Fin (fold_left (fun p a => mul p (of_nat a)) (seq (length C - o - S d) (S d)) (@lit R _ 1 0))).
    { change (@lit xr _ 1 0) with (Fin (Rlit 1 0)). change (@lit R _ 1 0) with (Rlit 1 0).
      apply fold_left_fin. intros. reflexivity. }
    rewrite E. rewrite (nth_indep _ nan (Fin 0)) by (rewrite map_length; lia).
    rewrite (map_nth Fin). rewrite (nth_indep C 0 nan) by lia. reflexivity.
Qed.

(** ** Blocks of valid data *)
Section Block.
  Variables (X Y : list xr) (k K : nat) (xs ys : nat -> R).
  Hypothesis HB : block X Y k K xs ys.

  Lemma blk_mono i j : (k <= i)%nat -> (i < j)%nat -> (j < K)%nat -> xs i < xs j.
  Proof.
    intros Hi Hij Hj. induction j as [|j IH]; [lia|].
    destruct (Nat.eq_dec i j) as [->|].
    - apply (blk_inc _ _ _ _ _ _ HB); lia.
    - apply Rlt_trans with (xs j); [apply IH; lia|].
      apply (blk_inc _ _ _ _ _ _ HB); lia.
  Qed.

  Lemma blk_mono_le i j : (k <= i)%nat -> (i <= j)%nat -> (j < K)%nat -> xs i <= xs j.
  Proof.
    intros. destruct (Nat.eq_dec i j) as [->|]; [lra|]. left. apply blk_mono; lia.
  Qed.

  Lemma blk_getX i : (k <= i < K)%nat -> get X i = Ok (Fin (xs i)).
  Proof. intros H. apply get_ok. apply (blk_X _ _ _ _ _ _ HB). assumption. Qed.
  Lemma blk_getY i : (k <= i < K)%nat -> get Y i = Ok (Fin (ys i)).
  Proof. intros H. apply get_ok. apply (blk_Y _ _ _ _ _ _ HB). assumption. Qed.

  Lemma block_valid_range : valid_range_1_two X Y = Ok (k, K).
  Proof.
    destruct HB as [Hlen HkK HK HX HY Hinc Hpre Hpost].
    destruct (valid_range_1_two_spec X Y) as (k' & K' & E & H1 & H2 & H3 & H4 & H5); [lia|].
    rewrite E.
      assert (Ek : k' = k).
      { destruct (Nat.lt_trichotomy k' k) as [H|[H|H]]; [|assumption|]; exfalso.
        - destruct (H3 ltac:(lia)) as (A1 & A2 & _).
          destruct (Hpre k' H) as [A|A]; apply nth_error_nth with (d := nan) in A;
            rewrite A in *; discriminate.
        - specialize (H2 k H).
          pose proof (nth_error_nth _ _ nan (HX k ltac:(lia))) as A1.
          pose proof (nth_error_nth _ _ nan (HY k ltac:(lia))) as A2.
          rewrite A1, A2 in H2. destruct H2; discriminate. }
      subst k'.
      assert (EK : K' = K).
      { destruct (Nat.lt_trichotomy K' K) as [H|[H|H]]; [|assumption|]; exfalso.
        - destruct (H5 ltac:(lia)) as [A _].
          rewrite (nth_error_nth _ _ nan (HX K' ltac:(lia))), (nth_error_nth _ _ nan (HY K' ltac:(lia))) in A.
          destruct A; discriminate.
        - destruct (H4 K ltac:(lia)) as [A1 A2].
          destruct (Hpost ltac:(lia)) as [A|A]; apply nth_error_nth with (d := nan) in A;
            rewrite A in *; discriminate. }
      congruence.
  Qed.

  (** *** Binary search *)
  Lemma searchsorted_spec (xs' : nat -> R) n (x : R) (l : list xr) :
    length l = n ->
    (forall i, (i < n)%nat -> nth_error l i = Some (Fin (xs' i))) ->
    (forall i, (S i < n)%nat -> xs' i < xs' (S i)) ->
    (searchsorted l (Fin x) <= n)%nat
    /\ (forall i, (i < searchsorted l (Fin x))%nat -> xs' i < x)
    /\ ((searchsorted l (Fin x) < n)%nat -> x <= xs' (searchsorted l (Fin x))).
  Proof.
    intros Hl Hn Hinc.
    assert (Hmono : forall i j, (i <= j)%nat -> (j < n)%nat -> xs' i <= xs' j).
    { intros i j Hij Hj. induction Hij as [|j Hij IH]; [lra|]. specialize (IH ltac:(lia)). specialize (Hinc j Hj). lra. }
    destruct (searchsorted_edges l (Fin x)) as (H1 & H2 & H3). rewrite Hl in *.
    set (j := searchsorted l (Fin x)) in *. split; [assumption|]. split.
    - intros i Hi. specialize (H2 ltac:(lia)). rewrite (nth_error_nth _ _ nan (Hn (j - 1)%nat ltac:(lia))) in H2.
      cbn [ltb xrNum xr_ltb] in H2. destruct (Rltb_spec (xs' (j - 1)%nat) x); [|discriminate].
      specialize (Hmono i (j - 1)%nat ltac:(lia) ltac:(lia)). lra.
    - intros Hj. specialize (H3 Hj). rewrite (nth_error_nth _ _ nan (Hn j Hj)) in H3.
      cbn [ltb xrNum xr_ltb] in H3. destruct (Rltb_spec (xs' j) x); [discriminate|lra].
  Qed.

  Lemma locate_inside x : (k + 1 < K)%nat -> xs k <= x <= xs (K - 1)%nat ->
    exists i, locate (Fin x) X Y = Ok (Some i) /\ in_piece k K xs x i.
  Proof.
    intros H2 Hx. unfold locate. rewrite block_valid_range. cbn [bind].
    destruct (Nat.leb_spec (K - 1) k) as [H|_]; [lia|]. xsimp.
    rewrite (blk_getX k) by lia. xsimp. rewrite Rltb_false by lra.
    rewrite (blk_getX (K - 1)) by lia. xsimp. rewrite Rltb_false by lra.
    destruct (searchsorted_spec (fun j => xs (k + j)%nat) (K - k) x (slice X k K))
      as (H3 & H4 & H5).
    - apply length_slice. apply (blk_K _ _ _ _ _ _ HB).
    - intros i Hi. rewrite nth_error_slice by assumption. apply (blk_X _ _ _ _ _ _ HB). lia.
    - intros i Hi. replace (k + S i)%nat with (S (k + i)) by lia.
      apply (blk_inc _ _ _ _ _ _ HB); lia.
    - eexists. split; [reflexivity|]. unfold in_piece.
      set (j := searchsorted (slice X k K) (Fin x)) in *.
      assert (HjK : (j < K - k)%nat).
      { destruct (Nat.eq_dec j (K - k)) as [He|He]; [|lia]. exfalso.
        specialize (H4 (K - 1 - k)%nat ltac:(lia)). cbv beta in H4.
        replace (k + (K - 1 - k))%nat with (K - 1)%nat in H4 by lia. lra. }
      destruct j as [|j'].
      + replace (Nat.max k (0 + k - 1)) with k by lia.
        specialize (H5 ltac:(lia)). cbv beta in H5. replace (k + 0)%nat with k in H5 by lia.
        pose proof (blk_mono k (S k) ltac:(lia) ltac:(lia) ltac:(lia)). repeat split; try lia; try lra.
      + replace (Nat.max k (S j' + k - 1)) with (k + j')%nat by lia.
        specialize (H5 ltac:(lia)). cbv beta in H5. replace (k + S j')%nat with (S (k + j')) in H5 by lia.
        specialize (H4 j' ltac:(lia)). cbv beta in H4.
        repeat split; try lia; try lra.
  Qed.

  Lemma locate_outside (x : xr) :
    (K <= k + 1)%nat \/ x = NaN \/ x = PInf \/ x = NInf
      \/ (exists r, x = Fin r /\ (r < xs k \/ xs (K - 1)%nat < r)) ->
    locate x X Y = Ok None.
  Proof.
    intros H. unfold locate. rewrite block_valid_range. cbn [bind].
    pose proof (blk_kK _ _ _ _ _ _ HB).
    destruct (Nat.leb_spec (K - 1) k) as [H'|H']; [reflexivity|]. cbn [orb].
    rewrite (blk_getX k), (blk_getX (K - 1)) by lia. xsimp.
    destruct H as [H|[->|[->|[->|(r & -> & H)]]]]; try lia; try reflexivity.
    xsimp. destruct (Rltb_spec r (xs k)); [reflexivity|].
    rewrite Rltb_true by lra. reflexivity.
  Qed.

  Lemma in_piece_exists x : (k + 1 < K)%nat -> xs k <= x <= xs (K - 1)%nat ->
    exists i, in_piece k K xs x i.
  Proof. intros H1 H2. destruct (locate_inside x H1 H2) as (i & _ & H). eauto. Qed.

  Lemma in_piece_unique x i j : in_piece k K xs x i -> in_piece k K xs x j -> i = j.
  Proof.
    intros (A1 & A2 & A3 & A4) (B1 & B2 & B3 & B4).
    destruct (Nat.lt_trichotomy i j) as [H|[H|H]]; [|assumption|]; exfalso.
    - pose proof (blk_mono_le (S i) j ltac:(lia) ltac:(lia) ltac:(lia)).
      destruct B4 as [->|B4]; [lia|]. lra.
    - pose proof (blk_mono_le (S j) i ltac:(lia) ltac:(lia) ltac:(lia)).
      destruct A4 as [->|A4]; [lia|]. lra.
  Qed.

  Lemma in_piece_range x i : in_piece k K xs x i -> (k + 1 < K)%nat /\ xs k <= x <= xs (K - 1)%nat.
  Proof.
    intros (A1 & A2 & A3 & A4). split; [lia|].
    pose proof (blk_mono_le k i ltac:(lia) ltac:(lia) ltac:(lia)).
    pose proof (blk_mono_le (S i) (K - 1) ltac:(lia) ltac:(lia) ltac:(lia)). lra.
  Qed.

  Lemma locate_piece x i : in_piece k K xs x i -> locate (Fin x) X Y = Ok (Some i).
  Proof.
    intros H. destruct (in_piece_range x i H) as [H1 H2].
    destruct (locate_inside x H1 H2) as (j & E & Hj).
    rewrite (in_piece_unique x i j H Hj). assumption.
  Qed.
End Block.

Lemma no_data_locate X Y x : no_data X Y -> locate x X Y = Ok None.
Proof.
  intros [Hl Hd]. unfold locate.
  destruct (valid_range_1_two_spec X Y) as (k & K & E & H1 & H2 & H3 & H4 & H5); [lia|].
  rewrite E. cbn [bind].
  destruct (Nat.eq_dec k (length X)) as [->|Hk].
  - destruct (Nat.leb_spec (K - 1) (length X)); [reflexivity|lia].
  - destruct (H3 ltac:(lia)) as (A1 & A2 & A3).
    destruct (Hd k ltac:(lia)) as [A|A]; apply nth_error_nth with (d := nan) in A;
      rewrite A in *; discriminate.
Qed.
