(** * Weighted graph Laplacians: positive definiteness and least squares *)
From Coq Require Import List Lia Arith Reals Lra.
From Verif Require Import Num XR Res S_graph S_lib S_matsolve P_div P_linalg.
Import ListNotations.
Local Open Scope R_scope.

(** an edge with its weight and error *)
Record item := mkI { ia : nat; ib : nat; iw : R; ie : R }.

Definition sgn_at (i : nat) (it : item) : R := (if Nat.eqb (ia it) i then 1 else 0) - (if Nat.eqb (ib it) i then 1 else 0).
Definition cost (I : list item) (x : nat -> R) : R :=
  Rsum (map (fun it => iw it * ((x (ib it) - x (ia it) + ie it) * (x (ib it) - x (ia it) + ie it))) I).
Definition ilinked (I : list item) (i j : nat) : Prop := exists it, In it I /\ 0 < iw it /\ joins (ia it, ib it) i j.

Section Graph.
  Variables (I : list item) (N ref : nat).
  Hypothesis Href : (ref < N)%nat.
  Hypothesis Hrange : forall it, In it I -> (ia it < N)%nat /\ (ib it < N)%nat.
  Hypothesis Hw : forall it, In it I -> 0 <= iw it.
  Hypothesis Hconn : forall i, (i < N)%nat -> reach (ilinked I) (fun j => (j < N)%nat) ref i.

  Lemma const_on_edges (x : nat -> R) : (forall it, In it I -> 0 < iw it -> x (ib it) = x (ia it)) -> forall i, (i < N)%nat -> x i = x ref.
  Proof.
    intros H i Hi. destruct (Hconn i Hi) as [k W]. clear Hi. induction W as [|k m n W IH E Hn]; [reflexivity|].
    destruct E as (it & Hin & Hp & J). specialize (H it Hin Hp). rewrite <- IH.
    destruct J as [J|J]; injection J as Ea Eb; congruence.
  Qed.

  Lemma adjoint (g : item -> R) x :
    nsum (fun i => x i * Rsum (map (fun it => sgn_at i it * g it) I)) N = Rsum (map (fun it => g it * (x (ia it) - x (ib it))) I).
  Proof.
    rewrite (nsum_ext _ (fun i => Rsum (map (fun it => x i * (sgn_at i it * g it)) I))) by (intros; rewrite Rsum_scal; reflexivity).
    rewrite nsum_Rsum. apply Rsum_ext. intros it Hin. destruct (Hrange it Hin) as [Ha Hb].
    rewrite (nsum_ext _ (fun j => (if Nat.eqb (ia it) j then g it * x (ia it) else 0) - (if Nat.eqb (ib it) j then g it * x (ib it) else 0))).
    - rewrite nsum_minus, !nsum_delta. apply Nat.ltb_lt in Ha. apply Nat.ltb_lt in Hb. rewrite Ha, Hb. ring.
    - intros j _. unfold sgn_at. destruct (Nat.eqb_spec (ia it) j) as [->|], (Nat.eqb_spec (ib it) j) as [->|]; ring.
  Qed.

  (** the divergence of anything has zero sum *)
  Lemma total_zero (g : item -> R) : nsum (fun i => Rsum (map (fun it => sgn_at i it * g it) I)) N = 0.
  Proof.
    rewrite (nsum_ext _ (fun i => 1 * Rsum (map (fun it => sgn_at i it * g it) I))) by (intros; ring).
    rewrite (adjoint g (fun _ => 1)). apply Rsum_zero. intros; ring.
  Qed.

  Section Matrix.
    Variable M : nat -> nat -> R.
    Hypothesis Hsym : forall i j, (i < N)%nat -> (j < N)%nat -> M i j = M j i.
    Hypothesis HM : forall x i, (i < N)%nat ->
      apply M N x i = Rsum (map (fun it => sgn_at i it * (iw it * (x (ia it) - x (ib it)))) I) + (if Nat.eqb i ref then x ref else 0).

    Lemma quadratic x : nsum (fun i => x i * apply M N x i) N
      = Rsum (map (fun it => iw it * ((x (ib it) - x (ia it)) * (x (ib it) - x (ia it)))) I) + x ref * x ref.
    Proof.
      rewrite (nsum_ext _ (fun i => x i * Rsum (map (fun it => sgn_at i it * (iw it * (x (ia it) - x (ib it)))) I)
                                    + (if Nat.eqb i ref then x i * x i else 0))).
      - rewrite nsum_plus, adjoint, nsum_pick. apply Nat.ltb_lt in Href as ->. f_equal. apply Rsum_ext. intros; ring.
      - intros i Hi. rewrite HM by assumption. destruct (Nat.eqb_spec i ref) as [->|]; ring.
    Qed.

    Lemma laplacian_pd : positive_definite N M.
    Proof.
      split; [assumption|]. intros x (i & Hi & Hx). rewrite quadratic.
      assert (P : forall it, In it I -> 0 <= iw it * ((x (ib it) - x (ia it)) * (x (ib it) - x (ia it)))).
      { intros it Hin. apply Rmult_le_pos; [auto|apply Rle_0_sqr]. }
      assert (0 <= Rsum (map (fun it => iw it * ((x (ib it) - x (ia it)) * (x (ib it) - x (ia it)))) I)) by (apply Rsum_pos; assumption).
      assert (0 <= x ref * x ref) by apply Rle_0_sqr.
      destruct (Req_EM_T (x ref) 0) as [E0|]; [|assert (0 < x ref * x ref) by (apply Rsqr_pos_lt; assumption); lra].
      enough (Rsum (map (fun it => iw it * ((x (ib it) - x (ia it)) * (x (ib it) - x (ia it)))) I) <> 0) by lra.
      intros E. apply Hx. rewrite <- E0. apply const_on_edges; [|assumption]. intros it Hin Hp.
      pose proof (Rsum_pos_zero _ _ P E it Hin) as Z. cbv beta in Z.
      apply Rmult_integral in Z as [Z|Z]; [lra|]. apply Rsqr_0_uniq in Z. lra.
    Qed.

    (** a solution of the system vanishes at ref and is a least squares solution *)
    Variable x : nat -> R.
    Hypothesis Hx : forall i, (i < N)%nat -> apply M N x i = Rsum (map (fun it => sgn_at i it * (iw it * ie it)) I).

    Lemma solution_ref : x ref = 0.
    Proof.
      assert (E : nsum (fun i => apply M N x i) N = 0).
      { rewrite (nsum_ext _ (fun i => Rsum (map (fun it => sgn_at i it * (iw it * ie it)) I))) by assumption. apply total_zero. }
      rewrite (nsum_ext _ (fun i => Rsum (map (fun it => sgn_at i it * (iw it * (x (ia it) - x (ib it)))) I)
                                    + (if Nat.eqb i ref then x i else 0))) in E.
      - rewrite nsum_plus, total_zero, nsum_pick in E. apply Nat.ltb_lt in Href as Hr. rewrite Hr in E. lra.
      - intros i Hi. rewrite HM by assumption. destruct (Nat.eqb_spec i ref) as [->|]; reflexivity.
    Qed.

    Lemma solution_min y : cost I x <= cost I y.
    Proof.
      set (h := fun i => y i - x i).
      assert (E : cost I y = cost I x + Rsum (map (fun it => iw it * ((h (ib it) - h (ia it)) * (h (ib it) - h (ia it)))) I)
                  + 2 * Rsum (map (fun it => (iw it * (x (ia it) - x (ib it)) - iw it * ie it) * (h (ia it) - h (ib it))) I)).
      { unfold cost. rewrite <- Rsum_scal, <- !Rsum_plus. apply Rsum_ext. intros it _. unfold h. ring. }
      assert (Z : Rsum (map (fun it => (iw it * (x (ia it) - x (ib it)) - iw it * ie it) * (h (ia it) - h (ib it))) I) = 0).
      { rewrite <- adjoint. apply nsum_zero. intros i Hi.
        rewrite (Rsum_ext _ (fun it => sgn_at i it * (iw it * (x (ia it) - x (ib it))) - sgn_at i it * (iw it * ie it))) by (intros; ring).
        rewrite Rsum_minus. pose proof (HM x i Hi) as HMi. rewrite Hx, solution_ref in HMi by assumption.
        rewrite HMi. destruct (Nat.eqb i ref); ring. }
      assert (0 <= Rsum (map (fun it => iw it * ((h (ib it) - h (ia it)) * (h (ib it) - h (ia it)))) I)).
      { apply Rsum_pos. intros it Hin. apply Rmult_le_pos; [auto|apply Rle_0_sqr]. }
      lra.
    Qed.
  End Matrix.

  (** the minimiser is unique up to a constant *)
  Lemma min_unique f g : (forall y, cost I f <= cost I y) -> cost I g = cost I f -> forall i, (i < N)%nat -> g i - f i = g ref - f ref.
  Proof.
    intros Hmin E i Hi. set (h := fun i => g i - f i).
    assert (Q : cost I (fun i => f i + h i / 2) = (cost I f + cost I g) / 2
                - / 4 * Rsum (map (fun it => iw it * ((h (ib it) - h (ia it)) * (h (ib it) - h (ia it)))) I)).
    { replace ((cost I f + cost I g) / 2) with (/ 2 * (cost I f + cost I g)) by field. unfold cost.
      rewrite <- Rsum_plus, <- !Rsum_scal, <- Rsum_minus. apply Rsum_ext. intros it _. unfold h. field. }
    specialize (Hmin (fun i => f i + h i / 2)).
    assert (P : forall it, In it I -> 0 <= iw it * ((h (ib it) - h (ia it)) * (h (ib it) - h (ia it)))).
    { intros it Hin. apply Rmult_le_pos; [auto|apply Rle_0_sqr]. }
    assert (Z : Rsum (map (fun it => iw it * ((h (ib it) - h (ia it)) * (h (ib it) - h (ia it)))) I) = 0).
    { assert (0 <= Rsum (map (fun it => iw it * ((h (ib it) - h (ia it)) * (h (ib it) - h (ia it)))) I)) by (apply Rsum_pos; assumption). lra. }
    apply (const_on_edges h); [|assumption]. intros it Hin Hp. pose proof (Rsum_pos_zero _ _ P Z it Hin) as Z'. cbv beta in Z'.
    apply Rmult_integral in Z' as [Z'|Z']; [lra|]. apply Rsqr_0_uniq in Z'. lra.
  Qed.

  (** ** the gradient formulation: one row for each edge, and c * x_ref = 0 *)
  Section Gradient.
    Variables (M : nat -> nat -> R) (c : R).
    Hypothesis Hc : 0 < c.
    Hypothesis HM : forall x k it, nth_error I k = Some it -> apply M N x k = sqrt (iw it) * (x (ib it) - x (ia it)).
    Hypothesis HMref : forall x, apply M N x (length I) = c * x ref.

    Lemma gradient_rank : full_column_rank (S (length I)) N M.
    Proof.
      intros x H j Hj. assert (E0 : x ref = 0).
      { specialize (H (length I) ltac:(lia)). rewrite HMref in H. apply Rmult_integral in H as [H|H]; [lra|assumption]. }
      rewrite <- E0. apply const_on_edges; [|assumption]. intros it Hin Hp. apply In_nth_error in Hin as [k Hk].
      assert (Hlt : (k < length I)%nat) by (apply nth_error_Some; congruence).
      specialize (H k ltac:(lia)). rewrite (HM x k it Hk) in H. apply Rmult_integral in H as [H|H]; [|lra].
      apply sqrt_eq_0 in H; lra.
    Qed.

    Variable b : nat -> R.
    Hypothesis Hb : forall k it, nth_error I k = Some it -> b k = - (sqrt (iw it) * ie it).
    Hypothesis Hbref : b (length I) = 0.

    Lemma nsum_items (g : nat -> R) (h : item -> R) : forall l s, (forall k it, nth_error l k = Some it -> g (s + k)%nat = h it) ->
      nsum (fun k => g (s + k)%nat) (length l) = Rsum (map h l).
    Proof.
      clear. induction l as [|it l IH]; intros s H; [reflexivity|]. cbn [length]. rewrite nsum_first. cbn [map Rsum fold_right].
      rewrite Nat.add_0_r. specialize (IH (S s)). fold (Rsum (map h l)). rewrite <- IH.
      - rewrite <- (H 0%nat it eq_refl), Nat.add_0_r. f_equal. apply nsum_ext. intros j _. f_equal. lia.
      - intros k it' Hk. specialize (H (S k) it' Hk). rewrite <- H. f_equal. lia.
    Qed.

    Lemma gradient_residual x : residual (S (length I)) N M b x = cost I x + c * c * (x ref * x ref).
    Proof.
      unfold residual. cbn [nsum]. rewrite HMref, Hbref.
      pose proof (nsum_items (fun k => (apply M N x k - b k) * (apply M N x k - b k))
                 (fun it => iw it * ((x (ib it) - x (ia it) + ie it) * (x (ib it) - x (ia it) + ie it))) I 0) as E.
      cbn [Nat.add] in E. rewrite E.
      - unfold cost. ring.
      - intros k it Hk. rewrite (HM x k it Hk), (Hb k it Hk). rewrite <- (sqrt_sqrt (iw it)) at 5.
        + ring.
        + apply Hw. eapply nth_error_In; eassumption.
    Qed.

    Lemma cost_shift x d : cost I (fun i => x i - d) = cost I x.
    Proof. apply Rsum_ext. intros; ring. Qed.

    Lemma gradient_min x : (forall y, residual (S (length I)) N M b x <= residual (S (length I)) N M b y) ->
      x ref = 0 /\ forall y, cost I x <= cost I y.
    Proof.
      intros H. assert (E0 : x ref = 0).
      { specialize (H (fun i => x i - x ref)). rewrite !gradient_residual, cost_shift in H. cbv beta in H.
        replace ((x ref - x ref) * (x ref - x ref)) with 0 in H by ring.
        assert (c * c * (x ref * x ref) <= 0) by lra. assert (0 <= x ref * x ref) by apply Rle_0_sqr.
        assert (0 < c * c) by (apply Rmult_lt_0_compat; assumption).
        destruct (Req_EM_T (x ref) 0); [assumption|]. assert (0 < x ref * x ref) by (apply Rsqr_pos_lt; assumption).
        assert (0 < c * c * (x ref * x ref)) by (apply Rmult_lt_0_compat; assumption). lra. }
      split; [assumption|]. intros y. specialize (H (fun i => y i - y ref)). rewrite !gradient_residual, cost_shift, E0 in H. cbv beta in H.
      replace ((y ref - y ref) * (y ref - y ref)) with 0 in H by ring. lra.
    Qed.
  End Gradient.
End Graph.
