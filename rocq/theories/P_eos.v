(** * Calculus used for the equations of state *)
From Coq Require Import ZArith Reals Lra Lia List.
From Verif Require Import Num Res M_eos_base S_eos.
Import ListNotations.
Open Scope R_scope.

Lemma Rlit_dec : forall m e, Rlit m e = dec m e.
Proof.
  intros m e. unfold Rlit, dec.
  destruct e as [|e|e]; cbn [Z.leb Z.compare powerRZ Z.opp].
  - rewrite Z.pow_0_r. reflexivity.
  - rewrite (pow_IZR 10 (Pos.to_nat e)), positive_nat_Z. reflexivity.
  - unfold Rdiv. f_equal. rewrite (pow_IZR 10 (Pos.to_nat e)), positive_nat_Z. reflexivity.
Qed.

(** term by term derivatives of a polynomial *)
Definition d1 (l : list mono) : list mono :=
  map (fun '(c, (i, j, k)) => (c * INR i, (pred i, j, k))) l.
Definition d2 (l : list mono) : list mono :=
  map (fun '(c, (i, j, k)) => (c * INR j, (i, pred j, k))) l.
Definition d3 (l : list mono) : list mono :=
  map (fun '(c, (i, j, k)) => (c * INR k, (i, j, pred k))) l.

Lemma lim_ext : forall f g x l,
  (forall y, f y = g y) -> derivable_pt_lim f x l -> derivable_pt_lim g x l.
Proof.
  intros f g x l Hfg Hf e He. destruct (Hf e He) as [d Hd]. exists d.
  intros h Hh Hh'. rewrite <- !Hfg. exact (Hd h Hh Hh').
Qed.

(** equality near the point is enough *)
Lemma lim_local : forall f g x l d, 0 < d ->
  (forall y, Rabs (y - x) < d -> f y = g y) -> derivable_pt_lim f x l -> derivable_pt_lim g x l.
Proof.
  intros f g x l d Hd Hfg Hf e He. destruct (Hf e He) as [d' Hd'].
  assert (Hm : 0 < Rmin d d') by (apply Rmin_pos; [exact Hd|apply cond_pos]).
  exists (mkposreal _ Hm). cbn. intros h Hh Hh'.
  rewrite <- !Hfg.
  - apply Hd'; [exact Hh|]. eapply Rlt_le_trans; [exact Hh'|apply Rmin_r].
  - rewrite Rminus_eq_0, Rabs_R0. exact Hd.
  - replace (x + h - x) with h by ring. eapply Rlt_le_trans; [exact Hh'|apply Rmin_l].
Qed.

Lemma lim_eq : forall f x l l', derivable_pt_lim f x l -> l = l' -> derivable_pt_lim f x l'.
Proof. intros f x l l' H <-. exact H. Qed.

Lemma lim_const : forall c x, derivable_pt_lim (fun _ => c) x 0.
Proof. exact derivable_pt_lim_const. Qed.

Lemma lim_id : forall x, derivable_pt_lim (fun x => x) x 1.
Proof. exact derivable_pt_lim_id. Qed.

Lemma lim_add : forall f g x l l', derivable_pt_lim f x l -> derivable_pt_lim g x l' ->
  derivable_pt_lim (fun y => f y + g y) x (l + l').
Proof. exact derivable_pt_lim_plus. Qed.

Lemma lim_mul : forall f g x l l', derivable_pt_lim f x l -> derivable_pt_lim g x l' ->
  derivable_pt_lim (fun y => f y * g y) x (l * g x + f x * l').
Proof. exact derivable_pt_lim_mult. Qed.

Lemma lim_div : forall f g x l l', derivable_pt_lim f x l -> derivable_pt_lim g x l' ->
  g x <> 0 -> derivable_pt_lim (fun y => f y / g y) x ((l * g x - l' * f x) / (g x)²).
Proof. exact derivable_pt_lim_div. Qed.

Lemma lim_comp : forall f g x l l', derivable_pt_lim f x l -> derivable_pt_lim g (f x) l' ->
  derivable_pt_lim (fun y => g (f y)) x (l' * l).
Proof. exact derivable_pt_lim_comp. Qed.

Lemma lim_scal : forall f a x l, derivable_pt_lim f x l ->
  derivable_pt_lim (fun y => a * f y) x (a * l).
Proof. intros f a x l H. exact (derivable_pt_lim_scal f a x l H). Qed.

Lemma poly_d1 : forall l x y z, derivable_pt_lim (fun x => poly l x y z) x (poly (d1 l) x y z).
Proof.
  intros l x y z. induction l as [|[c [[i j] k]] l IH]; cbn.
  - apply lim_const.
  - apply lim_add; [|exact IH].
    eapply lim_eq.
    + apply (lim_ext (fun x => (c * y ^ j * z ^ k) * x ^ i)); [intro; ring|].
      apply lim_scal. apply derivable_pt_lim_pow.
    + ring.
Qed.

Lemma poly_d2 : forall l x y z, derivable_pt_lim (fun y => poly l x y z) y (poly (d2 l) x y z).
Proof.
  intros l x y z. induction l as [|[c [[i j] k]] l IH]; cbn.
  - apply lim_const.
  - apply lim_add; [|exact IH].
    eapply lim_eq.
    + apply (lim_ext (fun y => (c * x ^ i * z ^ k) * y ^ j)); [intro; ring|].
      apply lim_scal. apply derivable_pt_lim_pow.
    + ring.
Qed.

Lemma poly_d3 : forall l x y z, derivable_pt_lim (fun z => poly l x y z) z (poly (d3 l) x y z).
Proof.
  intros l x y z. induction l as [|[c [[i j] k]] l IH]; cbn.
  - apply lim_const.
  - apply lim_add; [|exact IH].
    eapply lim_eq.
    + apply (lim_ext (fun z => (c * x ^ i * y ^ j) * z ^ k)); [intro; ring|].
      apply lim_scal. apply derivable_pt_lim_pow.
    + ring.
Qed.

Lemma lim_sqrt : forall x, 0 < x -> derivable_pt_lim sqrt x (/ (2 * sqrt x)).
Proof. exact derivable_pt_lim_sqrt. Qed.

Lemma poly_sqrt : forall l s y z, 0 < s ->
  derivable_pt_lim (fun s => poly l (sqrt s) y z) s (poly (d1 l) (sqrt s) y z * / (2 * sqrt s)).
Proof.
  intros l s y z Hs.
  apply (lim_comp sqrt (fun x => poly l x y z)); [apply lim_sqrt; exact Hs|apply poly_d1].
Qed.
