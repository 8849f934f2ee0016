(** * edges_to_graph: proofs over the reals *)
From Coq Require Import ZArith Bool List Lia Arith Reals Lra.
From Verif Require Import Num Res Arr ArrLemmas M_graph S_graph S_lib P_csr P_div.
Import ListNotations.
Local Open Scope nat_scope.

Lemma coo_entry_R edges : forall (w : list R) m n,
  coo_entry edges w m n
  = Rsum (map snd (filter (fun ew : nat * nat * R => Nat.eqb (fst (fst ew)) m && Nat.eqb (snd (fst ew)) n) (combine edges w))).
Proof.
  intros w m n. unfold coo_entry. change (@add R RNum) with Rplus. rewrite fold_Rsum, Rlit00. ring.
Qed.

Lemma edges_to_graph_ok edges N N0 (w : list R) :
  num_nodes edges N0 = Ok N -> in_range edges N -> length w = length edges ->
  exists G, edges_to_graph edges N0 w = Ok G /\ forall m n, G m n = weight_between edges w m n.
Proof.
  intros HN Hr Hl. unfold edges_to_graph. rewrite HN. cbn [bind].
  rewrite (proj2 (forallb_forall _ _)).
  2:{ intros [a b] Hin. apply Hr in Hin as [Ha Hb]. simpl. apply andb_true_iff. split; apply Nat.ltb_lt; assumption. }
  rewrite Hl, Nat.eqb_refl. simpl andb. cbv iota. eexists. split; [reflexivity|]. intros m n. cbv beta.
  rewrite !coo_entry_R. change (@add R RNum) with Rplus. clear HN Hr.
  revert w Hl. induction edges as [|[a b] r IH]; intros [|x w] Hl; try discriminate; simpl; [ring|].
  simpl in Hl. specialize (IH w ltac:(lia)). simpl in IH. rewrite <- IH.
  destruct (Nat.eqb a m), (Nat.eqb b n), (Nat.eqb a n), (Nat.eqb b m); simpl; ring.
Qed.

Lemma weight_sym edges : forall w m n, weight_between edges w m n = weight_between edges w n m.
Proof.
  induction edges as [|[a b] r IH]; intros [|x w] m n; simpl; try reflexivity. rewrite (IH w m n). ring.
Qed.

Lemma weight_none edges : forall w m n, ~ In (m, n) edges -> ~ In (n, m) edges -> weight_between edges w m n = 0%R.
Proof.
  induction edges as [|[a b] r IH]; intros [|x w] m n H1 H2; simpl; try reflexivity.
  rewrite IH; [|intros H; apply H1; right; assumption|intros H; apply H2; right; assumption].
  destruct (Nat.eqb_spec a m), (Nat.eqb_spec b n), (Nat.eqb_spec a n), (Nat.eqb_spec b m); subst; simpl; try ring;
    exfalso; try (apply H1; left; reflexivity); apply H2; left; reflexivity.
Qed.

(** simple graphs: no edge repeated in either direction, no self loop *)
Lemma weight_single edges : forall w i m n x,
  NoDup edges -> (forall a b, In (a, b) edges -> ~ In (b, a) edges) -> length w = length edges ->
  nth_error edges i = Some (m, n) -> nth_error w i = Some x ->
  weight_between edges w m n = x.
Proof.
  induction edges as [|[a b] r IH]; intros [|y w] i m n x Hnd Hsim Hl He Hw; try discriminate; [destruct i; discriminate|].
  inversion Hnd as [|? ? Hn Hnd']; subst. simpl in Hl.
  assert (Hsim' : forall u v, In (u, v) r -> ~ In (v, u) r).
  { intros u v Hu Hv. apply (Hsim u v); right; assumption. }
  destruct i as [|i]; simpl in He, Hw.
  - injection He as -> ->. injection Hw as ->. simpl. rewrite !Nat.eqb_refl. simpl.
    rewrite weight_none.
    + assert (Hmn : m <> n). { intros ->. apply (Hsim n n); left; reflexivity. }
      rewrite (proj2 (Nat.eqb_neq m n)) by assumption. simpl. ring.
    + assumption.
    + intros H. apply (Hsim m n); [left; reflexivity|right; assumption].
  - simpl. assert (Hin : In (m, n) r) by (eapply nth_error_In; eauto).
    rewrite (IH w i m n x); auto.
    destruct (Nat.eqb_spec a m), (Nat.eqb_spec b n), (Nat.eqb_spec a n), (Nat.eqb_spec b m); subst; simpl; try ring; exfalso;
      try contradiction; apply (Hsim m n); try (right; assumption); left; reflexivity.
Qed.
