(** * Trapezoidal rule: error bounds *)
From Coq Require Import Reals Lra Lia List.
From Coquelicot Require Import Coquelicot.
Import ListNotations.
Local Open Scope R_scope.

(** composite trapezoidal sum over the points of a list *)
Fixpoint tlist (y : R -> R) (l : list R) : R :=
  match l with
  | x0 :: ((x1 :: _) as l') => (x1 - x0) * ((y x1 + y x0) / 2) + tlist y l'
  | _ => 0
  end.

(** increasing points at most dp apart *)
Fixpoint chain (dp : R) (l : list R) : Prop :=
  match l with
  | x0 :: ((x1 :: _) as l') => 0 <= x1 - x0 <= dp /\ chain dp l'
  | _ => True
  end.

Lemma last_dflt (x1 : R) l d d' : last (x1 :: l) d = last (x1 :: l) d'.
Proof. revert x1. induction l as [|a l IH]; intros x1; [reflexivity|]. apply IH. Qed.

Lemma chain_last dp x l : chain dp (x :: l) -> x <= last (x :: l) x.
Proof.
  revert x. induction l as [|x1 l IH]; intros x H; [simpl; lra|].
  destruct H as [H1 H2]. specialize (IH x1 H2).
  change (x <= last (x1 :: l) x). rewrite (last_dflt x1 l x x1). lra.
Qed.

Lemma cont_ex_RInt (y : R -> R) a b : (forall x, continuity_pt y x) -> ex_RInt y a b.
Proof.
  intros H. apply (ex_RInt_continuous (V := R_CompleteNormedModule)). intros z _.
  apply continuity_pt_filterlim. apply H.
Qed.

Lemma tlist_error y dp e lo hi :
  (forall x, continuity_pt y x) ->
  (forall a b, lo <= a -> a <= b -> b <= hi -> b - a <= dp ->
     Rabs ((b - a) * ((y b + y a) / 2) - RInt y a b) <= e * (b - a)) ->
  forall l x, lo <= x -> chain dp (x :: l) -> last (x :: l) x <= hi ->
  Rabs (tlist y (x :: l) - RInt y x (last (x :: l) x)) <= e * (last (x :: l) x - x).
Proof.
  intros Hc He. induction l as [|x1 l IH]; intros x Hlo Hch Hhi.
  - change (last [x] x) with x. rewrite RInt_point. cbn [tlist]. change (@zero R_CompleteNormedModule) with 0.
    rewrite Rminus_0_r, Rabs_R0. lra.
  - destruct Hch as [H1 H2]. pose proof (chain_last dp x1 l H2) as H3.
    assert (El : last (x :: x1 :: l) x = last (x1 :: l) x1) by (apply (last_dflt x1 l)).
    rewrite El in *. specialize (IH x1 ltac:(lra) H2 Hhi).
    set (z := last (x1 :: l) x1) in *.
    specialize (He x x1 ltac:(lra) ltac:(lra) ltac:(lra) ltac:(lra)).
    assert (Ech : RInt y x x1 + RInt y x1 z = RInt y x z).
    { apply (RInt_Chasles (V := R_CompleteNormedModule)); apply cont_ex_RInt; assumption. }
    rewrite <- Ech.
    change (tlist y (x :: x1 :: l)) with ((x1 - x) * ((y x1 + y x) / 2) + tlist y (x1 :: l)).
    replace (_ - _) with (((x1 - x) * ((y x1 + y x) / 2) - RInt y x x1) + (tlist y (x1 :: l) - RInt y x1 z)) by ring.
    eapply Rle_trans; [apply Rabs_triang|]. lra.
Qed.

(** ** one step *)
Lemma dominated (f f' g g' : R -> R) a b : a <= b ->
  (forall x, a <= x <= b -> is_derive f x (f' x)) -> (forall x, a <= x <= b -> is_derive g x (g' x)) ->
  (forall x, a <= x <= b -> Rabs (f' x) <= g' x) -> f a = 0 -> g a = 0 -> Rabs (f b) <= g b.
Proof.
  intros Hab Hf Hg Hd Ha Ga.
  assert (M : forall s, (s = 1 \/ s = -1) -> s * f b <= g b).
  { intros s Hs.
    destruct (MVT_gen (fun x => g x - s * f x) a b (fun x => g' x - s * f' x)) as (c & Hc & E).
    - intros x Hx. rewrite Rmin_left, Rmax_right in Hx by lra.
      apply (is_derive_minus (V := R_NormedModule) g (fun x => s * f x)); [apply Hg; lra|].
      apply (is_derive_scal f x s (f' x)). apply Hf. lra.
    - intros x Hx. rewrite Rmin_left, Rmax_right in Hx by lra.
      apply continuity_pt_filterlim. apply (ex_derive_continuous (V := R_NormedModule) (fun x => g x - s * f x) x).
      exists (g' x - s * f' x). apply (is_derive_minus (V := R_NormedModule) g (fun x => s * f x)); [apply Hg; lra|].
      apply (is_derive_scal f x s (f' x)). apply Hf. lra.
    - rewrite Rmin_left, Rmax_right in Hc by lra. cbv beta in E. rewrite Ha, Ga in E.
      specialize (Hd c Hc). apply Rabs_le_between in Hd.
      assert (0 <= g' c - s * f' c) by (destruct Hs as [-> | ->]; lra).
      assert (0 <= (g' c - s * f' c) * (b - a)) by (apply Rmult_le_pos; lra). lra. }
  pose proof (M 1 ltac:(auto)). pose proof (M (-1) ltac:(auto)).
  apply Rabs_le_between. lra.
Qed.

Lemma trap_step_C2 (y q q1 q2 : R -> R) M a b : a <= b ->
  (forall x, continuity_pt y x) -> (forall x, a <= x <= b -> y x = q x) ->
  (forall x, a <= x <= b -> is_derive q x (q1 x) /\ is_derive q1 x (q2 x) /\ Rabs (q2 x) <= M) ->
  Rabs ((b - a) * ((y b + y a) / 2) - RInt y a b) <= M * (b - a) ^ 3 / 12.
Proof.
  intros Hab Hc Hy Hq.
  assert (HD : forall x, is_derive (fun x => RInt y a x) x (y x)).
  { intros x. apply (is_derive_RInt (V := R_NormedModule) y (fun x => RInt y a x) a x).
    - apply filter_forall. intros z. apply (RInt_correct (V := R_CompleteNormedModule)). apply cont_ex_RInt. assumption.
    - apply continuity_pt_filterlim. apply Hc. }
  rewrite Rabs_minus_sym, (Hy b), (Hy a) by lra.
  apply (dominated (fun x => RInt y a x - (x - a) * ((q x + q a) / 2))
    (fun x => (q x - q a) / 2 - (x - a) * q1 x / 2)
    (fun x => M * (x - a) ^ 3 / 12) (fun x => M * (x - a) ^ 2 / 4) a b Hab).
  - intros x Hx. destruct (Hq x Hx) as (D1 & _ & _).
    eapply is_derive_ext_loc with (f := fun x => RInt y a x - (x - a) * ((q x + q a) / 2)); [apply filter_forall; reflexivity|].
    replace ((q x - q a) / 2 - (x - a) * q1 x / 2) with (y x - ((q x + q a) / 2 + (x - a) * (q1 x / 2)))
      by (rewrite (Hy x Hx); field).
    apply (is_derive_minus (V := R_NormedModule) (fun x => RInt y a x) (fun x => (x - a) * ((q x + q a) / 2))); [apply HD|].
    assert (X : ex_derive q x) by (eexists; apply D1).
    auto_derive; [assumption|]. rewrite (is_derive_unique (fun x0 : R => q x0) x _ D1). field.
  - intros x Hx. auto_derive; [trivial|]. field.
  - intros x Hx.
    pose proof (dominated (fun x => (q x - q a) / 2 - (x - a) * q1 x / 2) (fun x => - ((x - a) * q2 x / 2))
      (fun x => M * (x - a) ^ 2 / 4) (fun x => M * (x - a) / 2) a x ltac:(lra)) as D.
    apply D.
    + intros z Hz. destruct (Hq z ltac:(lra)) as (D1 & D2 & _).
      assert (X : ex_derive q z) by (eexists; apply D1).
      assert (X1 : ex_derive q1 z) by (eexists; apply D2).
      auto_derive; [auto|].
      rewrite (is_derive_unique (fun x0 : R => q x0) z _ D1), (is_derive_unique (fun x0 : R => q1 x0) z _ D2). field.
    + intros z Hz. auto_derive; [trivial|]. field.
    + intros z Hz. destruct (Hq z ltac:(lra)) as (_ & _ & D3).
      rewrite Rabs_Ropp. unfold Rdiv. rewrite !Rabs_mult, (Rabs_right (z - a)), (Rabs_right (/ 2)) by lra.
      apply Rmult_le_compat_r; [lra|]. rewrite (Rmult_comm M). apply Rmult_le_compat_l; lra.
    + field.
    + field.
  - rewrite RInt_point. change (@zero R_CompleteNormedModule) with 0. field.
  - field.
Qed.

Lemma trap_step_osc (y : R -> R) e a b : a <= b -> (forall x, continuity_pt y x) ->
  (forall x x', a <= x <= b -> a <= x' <= b -> Rabs (y x - y x') <= e) ->
  Rabs ((b - a) * ((y b + y a) / 2) - RInt y a b) <= e * (b - a).
Proof.
  intros Hab Hc Hosc. set (c := (y b + y a) / 2).
  replace ((b - a) * c - RInt y a b) with (RInt (fun x => c - y x) a b).
  - rewrite (Rmult_comm e). apply abs_RInt_le_const; [assumption| |].
    + apply (ex_RInt_minus (V := R_NormedModule) (fun _ => c) y); [apply ex_RInt_const|apply cont_ex_RInt; assumption].
    + intros t Ht. pose proof (Hosc b t ltac:(lra) Ht) as A. pose proof (Hosc a t ltac:(lra) Ht) as B.
      unfold c. apply Rabs_le_between in A, B. apply Rabs_le_between. lra.
  - transitivity (RInt (fun _ => c) a b - RInt y a b).
    + apply (RInt_minus (V := R_CompleteNormedModule) (fun _ => c) y); [apply ex_RInt_const|apply cont_ex_RInt; assumption].
    + rewrite RInt_const. reflexivity.
Qed.

(** small oscillation on short intervals *)
Lemma osc_small (y : R -> R) lo hi e : (forall x, continuity_pt y x) -> 0 < e ->
  exists d, 0 < d /\ forall a b, lo <= a -> a <= b -> b <= hi -> b - a <= d ->
    forall x x', a <= x <= b -> a <= x' <= b -> Rabs (y x - y x') <= e.
Proof.
  intros Hc He.
  destruct (Heine y (fun c => lo <= c <= hi) (compact_P3 lo hi) (fun x _ => Hc x) (mkposreal e He)) as (d & Hd).
  exists (pos d / 2). split; [pose proof (cond_pos d); lra|].
  intros a b H1 H2 H3 H4 x x' Hx Hx'. left. apply (Hd x x'); [lra|lra|].
  pose proof (cond_pos d). apply Rabs_def1; lra.
Qed.
