(** * divergence: proofs over the reals *)
From Coq Require Import ZArith Bool List Lia Arith Reals Lra.
From Verif Require Import Num Res Arr ArrLemmas M_graph M_lib S_graph S_lib P_csr P_lib.
Import ListNotations.
Local Open Scope nat_scope.

Section Generic.
  Context {F : Type} {Nm : Num F}.

  Lemma np_bin_same f (x y : list F) : length x = length y ->
    exists z, np_bin f x y = Ok z /\ length z = length x
      /\ forall i u v, nth_error x i = Some u -> nth_error y i = Some v -> nth_error z i = Some (f u v).
  Proof.
    intros H. unfold np_bin. rewrite H, Nat.eqb_refl. eexists. split; [reflexivity|].
    split; [rewrite map_length, combine_length; lia|]. intros i u v Hu Hv.
    rewrite nth_error_map, nth_error_combine, Hu, Hv. reflexivity.
  Qed.


  (** what divergence computes at each node, in any arithmetic *)
  Lemma divergence_ok (v : list F) edges (d area : list F) m :
    max_node edges = Ok m -> length v = length edges -> length d = length edges -> length area = S m ->
    exists divg, divergence v edges d area = Ok divg /\ length divg = S m
      /\ forall j A, nth_error area j = Some A ->
           nth_error divg j = Some
             (div (sub (fold_left add (group (map (fun e => Z.of_nat (fst e)) edges) (flux v d) j) zero)
                       (fold_left add (group (map (fun e => Z.of_nat (snd e)) edges) (flux v d) j) zero)) A).
  Proof.
    intros Hm Hv Hd Ha. unfold divergence. rewrite Hm. cbn [bind].
    destruct (max_node_spec _ _ Hm) as [Hr _].
    unfold np_bin at 1. rewrite Hv, Hd, Nat.eqb_refl. cbn [bind]. fold (flux v d).
    assert (Hf : length (flux v d) = length edges) by (unfold flux; rewrite map_length, combine_length; lia).
    destruct (aggsum_ok (flux v d) (map (fun e => Z.of_nat (fst e)) edges) (S m)) as (o & Eo & Lo & Ho).
    { rewrite map_length. lia. }
    { intros k Hk. apply in_map_iff in Hk as ([a b] & <- & Hin). apply Hr in Hin. simpl fst. lia. }
    destruct (aggsum_ok (flux v d) (map (fun e => Z.of_nat (snd e)) edges) (S m)) as (i & Ei & Li & Hi).
    { rewrite map_length. lia. }
    { intros k Hk. apply in_map_iff in Hk as ([a b] & <- & Hin). apply Hr in Hin. simpl snd. lia. }
    rewrite Eo. cbn [bind]. rewrite Ei. cbn [bind].
    destruct (np_bin_same sub o i) as (z & Ez & Lz & Hz); [lia|]. rewrite Ez. cbn [bind].
    destruct (np_bin_same div z area) as (w & Ew & Lw & Hw); [lia|]. exists w. split; [assumption|]. split; [lia|].
    intros j A HA. pose proof (nth_error_lt _ _ _ HA) as Hj. apply Hw; [|assumption]. apply Hz; [apply Ho; lia|apply Hi; lia].
  Qed.
End Generic.

Lemma fold_Rsum l : forall acc, fold_left Rplus l acc = (acc + Rsum l)%R.
Proof. induction l as [|x l IH]; intros acc; simpl; [ring|]. rewrite IH. ring. Qed.

Lemma Rlit00 : @zero R RNum = 0%R.
Proof. unfold zero. simpl. unfold Rlit. simpl. ring. Qed.

Lemma outflow_groups edges : forall f j, length f = length edges ->
  (Rsum (group (map (fun e : nat * nat => Z.of_nat (fst e)) edges) f j)
   - Rsum (group (map (fun e : nat * nat => Z.of_nat (snd e)) edges) f j))%R = outflow edges f j.
Proof.
  induction edges as [|[a b] r IH]; intros [|x f] j L; try discriminate.
  - simpl. ring.
  - simpl in L. specialize (IH f j ltac:(lia)). cbn [outflow]. rewrite <- IH. unfold group. cbn [map combine filter fst snd].
    assert (Ha : Z.eqb (Z.of_nat a) (Z.of_nat j) = Nat.eqb a j).
    { destruct (Nat.eqb_spec a j) as [->|H]; [apply Z.eqb_refl|apply Z.eqb_neq; lia]. }
    assert (Hb : Z.eqb (Z.of_nat b) (Z.of_nat j) = Nat.eqb b j).
    { destruct (Nat.eqb_spec b j) as [->|H]; [apply Z.eqb_refl|apply Z.eqb_neq; lia]. }
    rewrite Ha, Hb. destruct (Nat.eqb a j), (Nat.eqb b j); simpl; ring.
Qed.

Lemma nsum_delta a f n : nsum (fun j => if Nat.eqb a j then f else 0%R) n = if Nat.ltb a n then f else 0%R.
Proof.
  induction n as [|n IH]; [reflexivity|]. cbn [nsum]. rewrite IH.
  destruct (Nat.ltb_spec a n), (Nat.eqb_spec a n), (Nat.ltb_spec a (S n)); try lia; ring.
Qed.

Lemma nsum_plus g h n : nsum (fun j => (g j + h j)%R) n = (nsum g n + nsum h n)%R.
Proof. induction n as [|n IH]; simpl; [ring|]. rewrite IH. ring. Qed.
Lemma nsum_minus g h n : nsum (fun j => (g j - h j)%R) n = (nsum g n - nsum h n)%R.
Proof. induction n as [|n IH]; simpl; [ring|]. rewrite IH. ring. Qed.
Lemma nsum_ext g h n : (forall j, j < n -> g j = h j) -> nsum g n = nsum h n.
Proof. induction n as [|n IH]; intros H; simpl; [reflexivity|]. rewrite IH, H; auto. Qed.

Lemma outflow_total edges : forall f N, in_range edges N -> nsum (outflow edges f) N = 0%R.
Proof.
  induction edges as [|[a b] r IH]; intros f N Hr.
  - simpl. induction N as [|k IHk]; simpl; [reflexivity|]. rewrite IHk; [ring|]. intros x y [].
  - destruct f as [|x f].
    + simpl. clear. induction N as [|k IHk]; simpl; [reflexivity|]. rewrite IHk. ring.
    + cbn [outflow]. rewrite nsum_plus, nsum_minus, !nsum_delta, IH.
      * destruct (Hr a b (or_introl eq_refl)) as [Ha Hb].
        apply Nat.ltb_lt in Ha. apply Nat.ltb_lt in Hb. rewrite Ha, Hb. ring.
      * intros u v H. apply Hr. right. assumption.
Qed.

Lemma divergence_real (v : list R) edges (d area : list R) m :
  max_node edges = Ok m -> length v = length edges -> length d = length edges -> length area = S m ->
  exists divg, divergence v edges d area = Ok divg /\ length divg = S m
    /\ forall j A, nth_error area j = Some A ->
         nth_error divg j = Some (outflow edges (flux v d) j / A)%R.
Proof.
  intros Hm Hv Hd Ha. destruct (divergence_ok v edges d area m Hm Hv Hd Ha) as (w & E & L & H).
  exists w. split; [assumption|]. split; [assumption|]. intros j A HA. rewrite (H j A HA). f_equal.
  change (@add R RNum) with Rplus. change (@sub R RNum) with Rminus. change (@div R RNum) with Rdiv.
  rewrite !fold_Rsum, !Rlit00.
  rewrite <- outflow_groups by (unfold flux; rewrite map_length, combine_length; lia).
  f_equal. ring.
Qed.

Lemma nsum_list l : forall (d : R), nsum (fun j => nth j l d) (length l) = Rsum l.
Proof.
  intros d. induction l as [|x l IH] using rev_ind; [reflexivity|].
  rewrite app_length, Nat.add_1_r. cbn [nsum]. rewrite app_nth2, Nat.sub_diag by lia. simpl.
  rewrite (nsum_ext _ (fun j => nth j l d)); [|intros j Hj; rewrite app_nth1 by lia; reflexivity].
  rewrite IH. clear. induction l as [|y l IH]; simpl; [ring|]. rewrite <- IH. ring.
Qed.

Lemma divergence_conserves (v : list R) edges (d area : list R) m divg :
  max_node edges = Ok m -> length v = length edges -> length d = length edges -> length area = S m ->
  (forall A, In A area -> A <> 0%R) ->
  divergence v edges d area = Ok divg ->
  Rsum (map (fun p => fst p * snd p)%R (combine area divg)) = 0%R.
Proof.
  intros Hm Hv Hd Ha Hpos E. destruct (divergence_real v edges d area m Hm Hv Hd Ha) as (w & Ew & L & H).
  rewrite E in Ew. injection Ew as <-.
  rewrite <- (nsum_list _ 0%R). rewrite map_length, combine_length, L, Ha, Nat.min_id.
  rewrite (nsum_ext _ (outflow edges (flux v d))).
  - apply outflow_total. apply max_node_spec in Hm as [Hr _]. assumption.
  - intros j Hj. destruct (nth_error area j) as [A|] eqn:EA; [|apply nth_error_None in EA; lia].
    apply nth_error_nth_iff. rewrite nth_error_map, nth_error_combine, EA, (H j A EA). cbn [option_map fst snd].
    f_equal. field. apply Hpos. eapply nth_error_In; eauto.
Qed.

Lemma outflow_linear edges : forall u v al be j, length u = length edges -> length v = length edges ->
  outflow edges (map (fun p => al * fst p + be * snd p)%R (combine u v)) j
  = (al * outflow edges u j + be * outflow edges v j)%R.
Proof.
  induction edges as [|[a b] r IH]; intros [|x u] [|y v] al be j Lu Lv; try discriminate; simpl; [ring|].
  simpl in *. rewrite IH by lia. destruct (Nat.eqb a j), (Nat.eqb b j); ring.
Qed.

Lemma flux_linear : forall u v d al be, length u = length d -> length v = length d ->
  flux (map (fun p => al * fst p + be * snd p)%R (combine u v)) d
  = map (fun p => al * fst p + be * snd p)%R (combine (flux u d) (flux v d)).
Proof.
  induction u as [|x u IH]; intros [|y v] [|z d] al be Lu Lv; try discriminate; [reflexivity|].
  simpl in *. unfold flux in *. simpl. f_equal; [ring|]. apply IH; lia.
Qed.

Lemma divergence_linear (u v : list R) edges (d area : list R) m du dv al be :
  max_node edges = Ok m -> length u = length edges -> length v = length edges -> length d = length edges -> length area = S m ->
  divergence u edges d area = Ok du -> divergence v edges d area = Ok dv ->
  divergence (map (fun p => al * fst p + be * snd p)%R (combine u v)) edges d area
  = Ok (map (fun p => al * fst p + be * snd p)%R (combine du dv)).
Proof.
  intros Hm Hu Hv Hd Ha Eu Ev.
  destruct (divergence_real u edges d area m Hm Hu Hd Ha) as (wu & E1 & L1 & H1).
  destruct (divergence_real v edges d area m Hm Hv Hd Ha) as (wv & E2 & L2 & H2).
  assert (Hc : length (map (fun p => al * fst p + be * snd p)%R (combine u v)) = length edges)
    by (rewrite map_length, combine_length; lia).
  destruct (divergence_real _ edges d area m Hm Hc Hd Ha) as (wc & E3 & L3 & H3).
  rewrite E3. rewrite Eu in E1. injection E1 as <-. rewrite Ev in E2. injection E2 as <-. f_equal.
  apply nth_error_ext. intros j. rewrite nth_error_map, nth_error_combine.
  destruct (nth_error area j) as [A|] eqn:EA.
  - rewrite (H1 j A EA), (H2 j A EA), (H3 j A EA). cbn [option_map fst snd]. f_equal.
    rewrite flux_linear by lia. rewrite outflow_linear by (unfold flux; rewrite map_length, combine_length; lia).
    unfold Rdiv. ring.
  - apply nth_error_None in EA. rewrite !(proj2 (nth_error_None _ _)) by lia. reflexivity.
Qed.

(** scalar operands behave as constant arrays *)
Section Scalar.
  Context {F : Type} {Nm : Num F}.
  Lemma np_bin_scalar f (x : list F) c : np_bin f x [c] = np_bin f x (repeat c (length x)).
  Proof.
    unfold np_bin. rewrite repeat_length, Nat.eqb_refl. destruct x as [|u [|v x]].
    - reflexivity.
    - reflexivity.
    - simpl. f_equal. f_equal. f_equal. clear. induction x as [|y x IH]; simpl; [reflexivity|]. f_equal. assumption.
  Qed.

  Lemma divergence_scalars (v : list F) edges c A m :
    max_node edges = Ok m -> length v = length edges ->
    divergence v edges [c] [A] = divergence v edges (repeat c (length edges)) (repeat A (S m)).
  Proof.
    intros Hm Hv. unfold divergence. rewrite Hm. cbn [bind]. rewrite np_bin_scalar, Hv.
    destruct (np_bin mul v _) as [e|] eqn:Ee; cbn [bind]; [|reflexivity].
    assert (He : length e = length edges).
    { destruct (np_bin_same mul v (repeat c (length edges))) as (z & Ez & Lz & _); [rewrite repeat_length; assumption|]. congruence. }
    destruct (max_node_spec _ _ Hm) as [Hr _].
    destruct (aggsum_ok e (map (fun e => Z.of_nat (fst e)) edges) (S m)) as (o & Eo & Lo & Ho).
    { rewrite map_length. lia. }
    { intros k Hk. apply in_map_iff in Hk as ([a b] & <- & Hin). apply Hr in Hin. simpl fst. lia. }
    destruct (aggsum_ok e (map (fun e => Z.of_nat (snd e)) edges) (S m)) as (i & Ei & Li & Hi).
    { rewrite map_length. lia. }
    { intros k Hk. apply in_map_iff in Hk as ([a b] & <- & Hin). apply Hr in Hin. simpl snd. lia. }
    rewrite Eo. cbn [bind]. rewrite Ei. cbn [bind]. destruct (np_bin_same sub o i) as (z & Ez & Lz & Hz); [lia|].
    rewrite Ez. cbn [bind]. rewrite np_bin_scalar, Lz, Lo. reflexivity.
  Qed.
End Scalar.
