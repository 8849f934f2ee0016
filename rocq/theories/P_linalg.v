(** * Sums and positive definite systems *)
From Coq Require Import List Lia Arith Reals Lra.
From Verif Require Import Num XR Res S_lib S_matsolve P_div.
Import ListNotations.
Local Open Scope R_scope.

Lemma nsum_scal c g n : nsum (fun j => c * g j) n = c * nsum g n.
Proof. induction n as [|n IH]; simpl; [ring|]. rewrite IH. ring. Qed.
Lemma nsum_0 n : nsum (fun _ => 0) n = 0.
Proof. induction n as [|n IH]; simpl; [reflexivity|]. rewrite IH. ring. Qed.
Lemma nsum_zero g n : (forall j, (j < n)%nat -> g j = 0) -> nsum g n = 0.
Proof. intros H. rewrite (nsum_ext g (fun _ => 0)) by assumption. apply nsum_0. Qed.
Lemma nsum_nonneg g n : (forall j, (j < n)%nat -> 0 <= g j) -> 0 <= nsum g n.
Proof. induction n as [|n IH]; intros H; simpl; [lra|]. specialize (IH ltac:(auto)). specialize (H n ltac:(lia)). lra. Qed.
Lemma nsum_nonneg_zero g n : (forall j, (j < n)%nat -> 0 <= g j) -> nsum g n = 0 -> forall j, (j < n)%nat -> g j = 0.
Proof.
  induction n as [|n IH]; intros H E j Hj; simpl in E; [lia|].
  assert (0 <= nsum g n) by (apply nsum_nonneg; auto). assert (0 <= g n) by auto.
  destruct (Nat.eq_dec j n) as [->|]; [lra|]. apply IH; auto; [lra|lia].
Qed.
Lemma nsum_first g n : nsum g (S n) = g 0%nat + nsum (fun j => g (S j)) n.
Proof. induction n as [|n IH]; [simpl; ring|]. cbn [nsum] in *. rewrite IH. ring. Qed.
Lemma nsum_pick r g n : nsum (fun j => if Nat.eqb j r then g j else 0) n = if Nat.ltb r n then g r else 0.
Proof.
  rewrite (nsum_ext _ (fun j => if Nat.eqb r j then g r else 0)).
  - apply nsum_delta.
  - intros j _. rewrite (Nat.eqb_sym j r). destruct (Nat.eqb_spec r j) as [->|]; reflexivity.
Qed.
Lemma nsum_swap h n k : nsum (fun i => nsum (fun j => h i j) k) n = nsum (fun j => nsum (fun i => h i j) n) k.
Proof.
  induction n as [|n IH]; simpl; [symmetry; apply nsum_0|]. rewrite IH, <- nsum_plus. reflexivity.
Qed.

(** sums over lists *)
Lemma Rsum_app l l' : Rsum (l ++ l') = Rsum l + Rsum l'.
Proof. induction l as [|x l IH]; simpl; [ring|]. rewrite IH. ring. Qed.
Section Items.
  Context {B : Type}.
  Implicit Types (I : list B) (g h : B -> R).
  Lemma Rsum_ext g h I : (forall x, In x I -> g x = h x) -> Rsum (map g I) = Rsum (map h I).
  Proof. intros H. f_equal. apply map_ext_in. assumption. Qed.
  Lemma Rsum_plus g h I : Rsum (map (fun x => g x + h x) I) = Rsum (map g I) + Rsum (map h I).
  Proof. induction I as [|x I IH]; simpl; [ring|]. rewrite IH. ring. Qed.
  Lemma Rsum_minus g h I : Rsum (map (fun x => g x - h x) I) = Rsum (map g I) - Rsum (map h I).
  Proof. induction I as [|x I IH]; simpl; [ring|]. rewrite IH. ring. Qed.
  Lemma Rsum_scal c g I : Rsum (map (fun x => c * g x) I) = c * Rsum (map g I).
  Proof. induction I as [|x I IH]; simpl; [ring|]. rewrite IH. ring. Qed.
  Lemma Rsum_zero g I : (forall x, In x I -> g x = 0) -> Rsum (map g I) = 0.
  Proof. induction I as [|x I IH]; intros H; simpl; [reflexivity|]. rewrite H, IH; [ring|intros; apply H; right; assumption|left; reflexivity]. Qed.
  Lemma Rsum_pos g I : (forall x, In x I -> 0 <= g x) -> 0 <= Rsum (map g I).
  Proof. induction I as [|x I IH]; intros H; simpl; [lra|]. assert (0 <= g x) by (apply H; left; reflexivity). assert (0 <= Rsum (map g I)) by (apply IH; intros; apply H; right; assumption). lra. Qed.
  Lemma Rsum_pos_zero g I : (forall x, In x I -> 0 <= g x) -> Rsum (map g I) = 0 -> forall x, In x I -> g x = 0.
  Proof.
    induction I as [|y I IH]; intros H E x Hx; simpl in *; [contradiction|].
    assert (0 <= g y) by (apply H; left; reflexivity). assert (0 <= Rsum (map g I)) by (apply Rsum_pos; intros; apply H; right; assumption).
    destruct Hx as [->|Hx]; [lra|]. apply IH; trivial; [intros; apply H; right; assumption|lra].
  Qed.
  Lemma nsum_Rsum (g : nat -> B -> R) I n : nsum (fun j => Rsum (map (g j) I)) n = Rsum (map (fun x => nsum (fun j => g j x) n) I).
  Proof. induction n as [|n IH]; simpl; [symmetry; apply Rsum_zero; reflexivity|]. rewrite IH, <- Rsum_plus. reflexivity. Qed.
  Lemma Rsum_filter (p : B -> bool) g I : Rsum (map g (filter p I)) = Rsum (map (fun x => if p x then g x else 0) I).
  Proof. induction I as [|x I IH]; simpl; [reflexivity|]. destruct (p x); simpl; rewrite IH; ring. Qed.
End Items.
Lemma Rsum_seq g : forall n, Rsum (map g (seq 0 n)) = nsum g n.
Proof. induction n as [|n IH]; [reflexivity|]. rewrite seq_S, map_app, Rsum_app, IH. simpl. ring. Qed.

(** ** Gaussian elimination for positive definite systems *)
Definition vcons (x0 : R) (x : nat -> R) (i : nat) : R := match i with O => x0 | S k => x k end.

Fixpoint solve (n : nat) (A : nat -> nat -> R) (b : nat -> R) : nat -> R :=
  match n with
  | O => fun _ => 0
  | S n =>
      let x := solve n (fun i j => A (S i) (S j) - A (S i) 0%nat * A 0%nat (S j) / A 0%nat 0%nat)
                       (fun i => b (S i) - A (S i) 0%nat / A 0%nat 0%nat * b 0%nat) in
      vcons ((b 0%nat - nsum (fun j => A 0%nat (S j) * x j) n) / A 0%nat 0%nat) x
  end.

Lemma apply_first A n x i : apply A (S n) x i = A i 0%nat * x 0%nat + nsum (fun j => A i (S j) * x (S j)) n.
Proof. unfold apply. rewrite nsum_first. reflexivity. Qed.

Lemma pd_pivot n A : positive_definite (S n) A -> 0 < A 0%nat 0%nat.
Proof.
  intros [_ H]. specialize (H (fun i => if Nat.eqb i 0 then 1 else 0)).
  assert (E : exists i, (i < S n)%nat /\ (if Nat.eqb i 0 then 1 else 0) <> 0) by (exists 0%nat; split; [lia|simpl; lra]).
  specialize (H E). rewrite (nsum_ext _ (fun i => if Nat.eqb i 0 then A 0%nat 0%nat else 0)) in H.
  - rewrite nsum_pick in H. simpl in H. exact H.
  - intros i _. destruct (Nat.eqb_spec i 0) as [->|]; [|ring]. unfold apply.
    rewrite (nsum_ext _ (fun j => if Nat.eqb j 0 then A 0%nat 0%nat else 0)).
    + rewrite nsum_pick. simpl. ring.
    + intros j _. destruct (Nat.eqb_spec j 0) as [->|]; ring.
Qed.

(** the Schur complement *)
Lemma pd_schur n A : positive_definite (S n) A ->
  positive_definite n (fun i j => A (S i) (S j) - A (S i) 0%nat * A 0%nat (S j) / A 0%nat 0%nat).
Proof.
  intros HA. pose proof (pd_pivot n A HA) as Hp. destruct HA as [Hs Hq]. split.
  - intros i j Hi Hj. rewrite (Hs (S i) (S j)), (Hs (S i) 0%nat), (Hs 0%nat (S j)) by lia. field. lra.
  - intros x (i0 & Hi0 & Hx).
    set (c := - nsum (fun j => A 0%nat (S j) * x j) n / A 0%nat 0%nat).
    assert (E : exists i, (i < S n)%nat /\ vcons c x i <> 0) by (exists (S i0); split; [lia|exact Hx]).
    specialize (Hq (vcons c x) E). rewrite nsum_first in Hq.
    rewrite apply_first in Hq. cbn [vcons] in Hq.
    replace (A 0%nat 0%nat * c + nsum (fun j => A 0%nat (S j) * x j) n) with 0 in Hq by (unfold c; field; lra).
    rewrite Rmult_0_r, Rplus_0_l in Hq.
    replace (nsum (fun i => x i * apply (fun i j => A (S i) (S j) - A (S i) 0%nat * A 0%nat (S j) / A 0%nat 0%nat) n x i) n)
      with (nsum (fun j => x j * apply A (S n) (vcons c x) (S j)) n); [exact Hq|].
    apply nsum_ext. intros i Hi. f_equal. rewrite apply_first. cbn [vcons]. unfold apply.
    rewrite (nsum_ext (fun j => (A (S i) (S j) - A (S i) 0%nat * A 0%nat (S j) / A 0%nat 0%nat) * x j)
              (fun j => A (S i) (S j) * x j - A (S i) 0%nat / A 0%nat 0%nat * (A 0%nat (S j) * x j))) by (intros; field; lra).
    rewrite nsum_minus, nsum_scal. unfold c. field. lra.
Qed.

Lemma solve_ok : forall n A b, positive_definite n A -> forall i, (i < n)%nat -> apply A n (solve n A b) i = b i.
Proof.
  induction n as [|n IH]; intros A b HA i Hi; [lia|]. pose proof (pd_pivot n A HA) as Hp.
  cbn [solve]. set (x := solve n _ _). rewrite apply_first. cbn [vcons].
  destruct i as [|i]; [field; lra|].
  assert (Hx := IH _ (fun i => b (S i) - A (S i) 0%nat / A 0%nat 0%nat * b 0%nat) (pd_schur n A HA) i ltac:(lia)).
  fold x in Hx. unfold apply in Hx.
  rewrite (nsum_ext _ (fun j => A (S i) (S j) * x j - A (S i) 0%nat / A 0%nat 0%nat * (A 0%nat (S j) * x j))) in Hx by (intros; field; lra).
  rewrite nsum_minus, nsum_scal in Hx. set (u := nsum (fun j => A (S i) (S j) * x j) n) in *.
  set (v := nsum (fun j => A 0%nat (S j) * x j) n) in *.
  replace u with (b (S i) - A (S i) 0%nat / A 0%nat 0%nat * b 0%nat + A (S i) 0%nat / A 0%nat 0%nat * v) by lra.
  field. lra.
Qed.

(** ** both contracts can be met *)
Definition real_of (x : xr) : R := match x with Fin r => r | _ => 0 end.
Definition ge_spsolve (N : nat) (A : nat -> nat -> xr) (r : list xr) : list xr :=
  map (fun i => Fin (solve N (fun i j => real_of (A i j)) (fun i => real_of (nth i r NaN)) i)) (seq 0 N).

Lemma nth_map_seq (h : nat -> R) n i d : (i < n)%nat -> nth i (map h (seq 0 n)) d = h i.
Proof. intros H. rewrite (nth_indep _ d (h 0%nat)) by (rewrite map_length, seq_length; assumption). rewrite map_nth, seq_nth by assumption. reflexivity. Qed.
Lemma nth_map_fin r i : (i < length r)%nat -> nth i (map Fin r) NaN = Fin (nth i r 0).
Proof. intros H. rewrite (nth_indep _ NaN (Fin 0)) by (rewrite map_length; assumption). apply map_nth. Qed.

Lemma pd_ext N M M' : (forall i j, (i < N)%nat -> (j < N)%nat -> M i j = M' i j) -> positive_definite N M -> positive_definite N M'.
Proof.
  intros H [Hs Hq]. split.
  - intros i j Hi Hj. rewrite <- !H by assumption. apply Hs; assumption.
  - intros x Hx. specialize (Hq x Hx). erewrite nsum_ext; [exact Hq|]. intros i Hi. cbv beta. f_equal. apply nsum_ext. intros j Hj. rewrite H by assumption. reflexivity.
Qed.
Lemma apply_ext M M' n x x' i : (forall j, (j < n)%nat -> M i j = M' i j /\ x j = x' j) -> apply M n x i = apply M' n x' i.
Proof. intros H. apply nsum_ext. intros j Hj. destruct (H j Hj) as [-> ->]. reflexivity. Qed.

Lemma ge_spsolve_exact : exact_spsolve ge_spsolve.
Proof.
  intros N A M r HM HP Hr. set (x := solve N (fun i j => real_of (A i j)) (fun i => real_of (nth i (map Fin r) NaN))).
  exists (map x (seq 0 N)). split; [rewrite map_length, seq_length; reflexivity|].
  split; [unfold ge_spsolve; rewrite map_map; reflexivity|].
  assert (HP' : positive_definite N (fun i j => real_of (A i j))).
  { eapply pd_ext; [|exact HP]. intros i j Hi Hj. simpl. rewrite (HM i j Hi Hj). reflexivity. }
  intros i Hi. rewrite <- (apply_ext (fun i j => real_of (A i j)) M N x).
  - unfold x. rewrite solve_ok by assumption. rewrite nth_map_fin by lia. reflexivity.
  - intros j Hj. split; [rewrite (HM i j Hi Hj); reflexivity|]. rewrite nth_map_seq by assumption. reflexivity.
Qed.

(** normal equations *)
Definition ge_lsqr (rows cols : nat) (A : nat -> nat -> xr) (b : list xr) : list xr :=
  map (fun i => Fin (solve cols (fun i j => nsum (fun k => real_of (A k i) * real_of (A k j)) rows)
                       (fun i => nsum (fun k => real_of (A k i) * real_of (nth k b NaN)) rows) i)) (seq 0 cols).

(** x' (M' y) = (M x)' y *)
Lemma gram M rows cols x y :
  nsum (fun i => x i * apply (fun i j => nsum (fun k => M k i * M k j) rows) cols y i) cols
  = nsum (fun k => apply M cols x k * apply M cols y k) rows.
Proof.
  unfold apply.
  rewrite (nsum_ext _ (fun i => nsum (fun k => x i * M k i * nsum (fun j => M k j * y j) cols) rows)).
  - rewrite nsum_swap. apply nsum_ext. intros k _.
    rewrite (nsum_ext _ (fun i => nsum (fun j => M k j * y j) cols * (M k i * x i))) by (intros; ring).
    rewrite nsum_scal. ring.
  - intros i _. rewrite <- nsum_scal.
    rewrite (nsum_ext (fun j => x i * (nsum (fun k => M k i * M k j) rows * y j)) (fun j => nsum (fun k => x i * M k i * (M k j * y j)) rows)).
    + rewrite nsum_swap. apply nsum_ext. intros k _. rewrite nsum_scal. reflexivity.
    + intros j _. rewrite <- Rmult_assoc, (Rmult_comm (x i)), Rmult_assoc, Rmult_comm, <- nsum_scal. apply nsum_ext. intros k _. ring.
Qed.

Lemma gram_pd M rows cols : full_column_rank rows cols M -> positive_definite cols (fun i j => nsum (fun k => M k i * M k j) rows).
Proof.
  intros H. split.
  - intros i j _ _. apply nsum_ext. intros k _. ring.
  - intros x (i & Hi & Hx). rewrite gram.
    assert (0 <= nsum (fun k => apply M cols x k * apply M cols x k) rows) by (apply nsum_nonneg; intros; apply Rle_0_sqr).
    enough (nsum (fun k => apply M cols x k * apply M cols x k) rows <> 0) by lra.
    intros E. apply Hx. apply H; [|assumption]. intros k Hk. apply Rsqr_0_uniq.
    apply (nsum_nonneg_zero (fun k => apply M cols x k * apply M cols x k) rows); trivial. intros; apply Rle_0_sqr.
Qed.

Lemma apply_minus M n x y i : apply M n (fun j => x j - y j) i = apply M n x i - apply M n y i.
Proof. unfold apply. rewrite <- nsum_minus. apply nsum_ext. intros; ring. Qed.

Lemma normal_min M rows cols b x :
  (forall i, (i < cols)%nat -> apply (fun i j => nsum (fun k => M k i * M k j) rows) cols x i = nsum (fun k => M k i * b k) rows) ->
  forall y, residual rows cols M b x <= residual rows cols M b y.
Proof.
  intros H y. set (h := fun j => y j - x j).
  assert (E : residual rows cols M b y = residual rows cols M b x
              + nsum (fun k => apply M cols h k * apply M cols h k) rows
              + 2 * nsum (fun k => apply M cols h k * (apply M cols x k - b k)) rows).
  { unfold residual. rewrite <- nsum_scal, <- !nsum_plus. apply nsum_ext. intros k _.
    replace (apply M cols h k) with (apply M cols y k - apply M cols x k) by (symmetry; apply apply_minus). ring. }
  assert (Z : nsum (fun k => apply M cols h k * (apply M cols x k - b k)) rows = 0).
  { rewrite (nsum_ext _ (fun k => apply M cols h k * apply M cols x k - apply M cols h k * b k)) by (intros; ring).
    rewrite nsum_minus, <- gram.
    rewrite (nsum_ext (fun k => apply M cols h k * b k) (fun k => nsum (fun i => h i * (M k i * b k)) cols)).
    - rewrite nsum_swap, <- nsum_minus. apply nsum_zero. intros i Hi. rewrite H by assumption. rewrite nsum_scal. ring.
    - intros k _. unfold apply. rewrite Rmult_comm, <- nsum_scal. apply nsum_ext. intros; ring. }
  assert (0 <= nsum (fun k => apply M cols h k * apply M cols h k) rows) by (apply nsum_nonneg; intros; apply Rle_0_sqr). lra.
Qed.

Lemma ge_lsqr_exact : exact_lsqr ge_lsqr.
Proof.
  intros rows cols A M b HM HF Hb.
  set (G := fun i j => nsum (fun k => real_of (A k i) * real_of (A k j)) rows).
  set (c := fun i => nsum (fun k => real_of (A k i) * real_of (nth k (map Fin b) NaN)) rows).
  set (x := solve cols G c). exists (map x (seq 0 cols)). split; [rewrite map_length, seq_length; reflexivity|].
  split; [unfold ge_lsqr; rewrite map_map; reflexivity|].
  assert (EG : forall i j, (i < cols)%nat -> (j < cols)%nat -> nsum (fun k => M k i * M k j) rows = G i j).
  { intros i j Hi Hj. apply nsum_ext. intros k Hk. rewrite !(HM k) by assumption. reflexivity. }
  assert (HG : positive_definite cols G) by (eapply pd_ext; [exact EG|apply gram_pd; assumption]).
  intros y. apply normal_min. intros i Hi.
  rewrite (apply_ext _ G cols _ x).
  - unfold x. rewrite solve_ok by assumption. apply nsum_ext. intros k Hk. rewrite (HM k) by assumption. simpl. rewrite nth_map_fin by lia. reflexivity.
  - intros j Hj. split; [apply EG; assumption|apply nth_map_seq; assumption].
Qed.
