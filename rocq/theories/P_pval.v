(** * pval computes derivatives of polynomials (ppinterp.py:20-69) *)
From Coq Require Import ZArith Reals Lra Lia List.
From Coquelicot Require Import Coquelicot.
From Verif Require Import Num XR Res XRlemmas M_ppinterp S_poly.
Import ListNotations.
Local Open Scope R_scope.

Definition ffac (n d : nat) : R :=
  fold_left (fun p a => p * INR a) (seq (S n - d) d) 1.

(** closed form of the d-th derivative *)
Fixpoint dpoly (C : list R) (d : nat) (x : R) : R :=
  match C with
  | [] => 0
  | c :: r =>
      (if Nat.leb d (length r) then c * ffac (length r) d * x ^ (length r - d) else 0)
      + dpoly r d x
  end.

Lemma fold_mul_out l y : fold_left (fun p a => p * INR a) l y = y * fold_left (fun p a => p * INR a) l 1.
Proof.
  revert y. induction l; intros y; simpl; [ring|]. rewrite IHl. rewrite (IHl (1 * _)). ring.
Qed.

Lemma ffac_S n d : (d < S n)%nat -> ffac n (S d) = ffac n d * INR (n - d).
Proof.
  intros H. unfold ffac. replace (S n - S d)%nat with (n - d)%nat by lia.
  replace (S n - d)%nat with (S (n - d)) by lia.
  simpl seq. simpl fold_left. rewrite fold_mul_out. ring.
Qed.

Lemma ffac_0 n : ffac n 0 = 1.
Proof. reflexivity. Qed.

Lemma dpoly_0 C x : dpoly C 0 x = poly C x.
Proof.
  induction C as [|c r IH]; simpl; auto. rewrite IH, ffac_0, Nat.sub_0_r. ring.
Qed.

Lemma dpoly_derive C d x : is_derive (dpoly C d) x (dpoly C (S d) x).
Proof.
  induction C as [|c r IH]; cbn [dpoly].
  - apply (is_derive_const (V := R_NormedModule) 0).
  - apply (is_derive_plus (V := R_NormedModule)); [clear IH|assumption].
    set (n := length r).
    destruct (Nat.leb_spec d n) as [H|H].
    + destruct (Nat.leb_spec (S d) n) as [H'|H'].
      * rewrite ffac_S by lia.
        auto_derive; [trivial|].
        replace (n - S d)%nat with (Nat.pred (n - d)) by lia. ring.
      * replace (n - d)%nat with 0%nat by lia. simpl.
        apply (is_derive_const (V := R_NormedModule) (c * ffac n d * 1)).
    + destruct (Nat.leb_spec (S d) n) as [H'|H']; [lia|].
      apply (is_derive_const (V := R_NormedModule) 0).
Qed.

Lemma dpoly_Derive_n C d : forall x, Derive_n (poly C) d x = dpoly C d x.
Proof.
  induction d as [|d IH]; intros x; simpl.
  - symmetry. apply dpoly_0.
  - rewrite (Derive_ext _ (dpoly C d)) by assumption.
    apply is_derive_unique, dpoly_derive.
Qed.

Lemma dpoly_ex_derive_n C d x : ex_derive_n (poly C) d x.
Proof.
  destruct d as [|d]; simpl; [trivial|].
  apply ex_derive_ext with (f := dpoly C d).
  - intros t. symmetry. apply dpoly_Derive_n.
  - eexists. apply dpoly_derive.
Qed.

(** ** pval = dpoly *)
Lemma fold_horner {A} (g : A -> R) l x y :
  fold_left (fun y a => y * x + g a) l y
  = y * x ^ (length l) + fold_left (fun y a => y * x + g a) l 0.
Proof.
  revert y. induction l as [|a l IH]; intros y; simpl; [ring|].
  rewrite IH. rewrite (IH (0 * x + g a)). ring.
Qed.

Lemma fold_left_seq_S {A} (f : A -> nat -> A) a n y :
  fold_left f (seq (S a) n) y = fold_left (fun y o => f y (S o)) (seq a n) y.
Proof.
  revert a y. induction n; intros a y; simpl; auto.
Qed.

Lemma fold_left_ext_in {A B} (f g : A -> B -> A) l y :
  (forall y b, In b l -> f y b = g y b) -> fold_left f l y = fold_left g l y.
Proof.
  revert y. induction l as [|b l IH]; intros y H; simpl; auto.
  rewrite H by (left; reflexivity). apply IH. intros. apply H. right. assumption.
Qed.

Lemma pval_S x c r d : (S d <= S (length r))%nat ->
  pval x (c :: r) (S d)
  = (if Nat.leb (S d) (length r) then c * ffac (length r) (S d) * x ^ (length r - S d) else 0)
    + pval x r (S d).
Proof.
  intros H. unfold pval.
  change (@lit R _ 0 0) with (Rlit 0 0). change (@lit R _ 1 0) with (Rlit 1 0).
  rewrite !Rlit_0.
  simpl length. simpl nth. set (n := length r).
  assert (Eff : forall o, (o < n)%nat ->
     fold_left (fun p a => p * INR a) (seq (n - o - S d) (S d)) 1 = ffac (n - o - 1) (S d)).
  { intros o Ho. unfold ffac. f_equal. f_equal. lia. }
  destruct (Nat.leb_spec (S d) n) as [H'|H'].
  - replace (S n - S d)%nat with (S (n - S d)) by lia.
    rewrite <- cons_seq. cbn [fold_left].
    rewrite fold_left_seq_S.
    match goal with |- fold_left ?f ?l ?y0 = _ =>
      change (fold_left (fun y o => y * x + (fun o => nth o r nan *
        fold_left (fun p a => mul p (of_nat a)) (seq (n - o - S d) (S d)) 1) o) l y0 = 
        c * ffac n (S d) * x ^ (n - S d) + 
        fold_left (fun y o => y * x + (fun o => nth o r nan *
        fold_left (fun p a => mul p (of_nat a)) (seq (n - o - S d) (S d)) 1) o) l 0) end.
    rewrite fold_horner. rewrite seq_length.
    f_equal.
    unfold ffac. change (@mul R _) with Rmult. change (@add R _) with Rplus.
    replace (S n - 0 - S d)%nat with (S n - S d)%nat by lia.
    assert (E : forall l y, fold_left (fun p a => p * of_nat a) l y = fold_left (fun p a => p * INR a) l y).
    { intros l y. apply fold_left_ext_in. intros. f_equal. unfold of_nat, of_Z. 
      simpl. unfold Rlit. simpl. rewrite INR_IZR_INZ. lra. }
    rewrite E. cbn [seq fold_left]. lra.
  - replace (S n - S d)%nat with 0%nat by lia. replace (n - S d)%nat with 0%nat by lia.
    simpl. ring.
Qed.

Lemma pval_nil x d : pval x (@nil R) d = 0.
Proof. destruct d; unfold pval; simpl; apply Rlit_0. Qed.

Lemma pval_high x (C : list R) d : (length C < S d)%nat -> pval x C (S d) = 0.
Proof.
  intros H. unfold pval. replace (length C - S d)%nat with 0%nat by lia. simpl. apply Rlit_0.
Qed.

Lemma pval_dpoly x C d : pval x C d = dpoly C d x.
Proof.
  destruct d as [|d].
  - rewrite dpoly_0. unfold pval. change (@lit R _ 0 0) with (Rlit 0 0). rewrite Rlit_0.
    induction C as [|c r IH]; simpl; auto.
    change (fold_left (fun y c => y * x + c) r (0 * x + c) = c * x ^ length r + poly r x).
    rewrite (fold_horner (fun c => c)). simpl in IH. rewrite <- IH.
    change (@add R _) with Rplus. change (@mul R _) with Rmult. ring.
  - induction C as [|c r IH].
    + apply pval_nil.
    + destruct (Nat.le_gt_cases (S d) (S (length r))) as [H|H].
      * rewrite pval_S by assumption. rewrite IH. reflexivity.
      * rewrite pval_high by (simpl; lia).
        cbn [dpoly]. rewrite <- IH. rewrite pval_high by lia.
        destruct (Nat.leb_spec (S d) (length r)); [lia|]. ring.
Qed.

Lemma pval_derivative (C : list R) (d : nat) (x : R) :
  is_derive_n (poly C) d x (pval x C d) /\ pval x C d = Derive_n (poly C) d x.
Proof.
  rewrite pval_dpoly, dpoly_Derive_n. split; [|reflexivity].
  rewrite <- dpoly_Derive_n. apply Derive_n_correct, dpoly_ex_derive_n.
Qed.
