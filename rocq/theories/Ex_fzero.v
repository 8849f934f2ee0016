(** * Witnesses used in the properties about root finding *)
From Coq Require Import ZArith Bool Reals Lra Lia List SpecFloat.
From Verif Require Import Num XR SF Res XRlemmas M_fzero S_fzero P_fzero.
Local Open Scope R_scope.

(** lift of a real function to the model's function type *)
Definition lift_ok (g : R -> R) (x : xr) : res xr :=
  match x with Fin r => Ok (Fin (g r)) | _ => Ok NaN end.

Lemma sq_continuous : continuous_on (fun x => x * x - 2) 0 2.
Proof.
  intros x _. apply derivable_continuous_pt.
  apply (derivable_pt_minus (fun x => x * x) (fun _ => 2)).
  - apply (derivable_pt_mult (fun x => x) (fun x => x)); apply derivable_pt_id.
  - apply derivable_pt_const.
Qed.

(** a continuous function with its only root at 0.9 *)
Definition kinked (x : R) : R := (190 / 9 * (x - 9 / 10) + Rabs (170 / 9 * (x - 9 / 10))) / 2.

Lemma kinked_0 : kinked 0 = -1.
Proof. unfold kinked, Rabs. destruct (Rcase_abs _); lra. Qed.
Lemma kinked_1 : kinked 1 = 2.
Proof. unfold kinked, Rabs. destruct (Rcase_abs _); lra. Qed.
Lemma kinked_root x : kinked x = 0 -> x = 9 / 10.
Proof. unfold kinked, Rabs. destruct (Rcase_abs _); lra. Qed.

Lemma kinked_continuous : continuous_on kinked 0 1.
Proof.
  intros x _. unfold kinked.
  assert (Hlin : forall k, continuity_pt (fun z => k * (z - 9 / 10)) x).
  { intros k. apply derivable_continuous_pt. 
    apply (derivable_pt_scal (fun z => z - 9 / 10) k).
    apply (derivable_pt_minus id (fun _ => 9 / 10)); [apply derivable_pt_id|apply derivable_pt_const]. }
  apply (continuity_pt_mult (fun z => 190 / 9 * (z - 9 / 10) + Rabs (170 / 9 * (z - 9 / 10))) (fun _ => / 2)).
  - apply (continuity_pt_plus (fun z => 190 / 9 * (z - 9 / 10)) (fun z => Rabs (170 / 9 * (z - 9 / 10)))).
    + apply Hlin.
    + apply (continuity_pt_comp (fun z => 170 / 9 * (z - 9 / 10)) Rabs); [apply Hlin|apply Rcontinuity_abs].
  - apply continuity_pt_const. intros ? ?. reflexivity.
Qed.

Lemma brent_kinked fuel :
  brent (lift_ok kinked) (S fuel) (Fin 0) (Fin 1) (Fin (1 / 2)) = Ok (Fin 0).
Proof.
  unfold brent, lift_ok. rewrite kinked_0, kinked_1. xsimp.
  rewrite !Rltb_false by lra.
  cbn [loop]. unfold brent_body. rewrite eps_xr. xsimp.
  rewrite (Rltb_true (Rabs (-1))).
  2:{ rewrite Rabs_left, Rabs_right by lra. lra. }
  xsimp. rewrite Rabs_R0, Rleb_true; [reflexivity|].
  rewrite Rabs_right by lra. lra.
Qed.

(** binary64: both end values are 1e-200, their product underflows to 0 *)
Definition tiny : f64 -> res f64 := fun _ => Ok (lit 1 (-200)).

Lemma brent_underflow :
  exists (f : f64 -> res f64) (a b t : f64) (fa fb x : f64),
    f a = Ok fa /\ f b = Ok fb
    /\ ltb (lit 0 0) fa = true /\ ltb (lit 0 0) fb = true
    /\ brent f 100 a b t = Ok x /\ isnan x = false.
Proof.
  eexists tiny, (lit 0 0), (lit 1 0), (lit 1 (-2)), (lit 1 (-200)), (lit 1 (-200)), _.
  split; [reflexivity|]. split; [reflexivity|].
  split; [vm_compute; reflexivity|]. split; [vm_compute; reflexivity|].
  split; [vm_compute; reflexivity|]. vm_compute; reflexivity.
Qed.

Lemma brent_within_tol_refuted :
  exists (g : R -> R) (a b t x : R),
    a <= b /\ 0 < t /\ (forall x, a <= x <= b -> continuity_pt g x) /\ g a * g b <= 0
    /\ (forall fuel, (1 <= fuel)%nat -> brent (lift_ok g) fuel (Fin a) (Fin b) (Fin t) = Ok (Fin x))
    /\ forall r, g r = 0 -> Rabs (x - r) > 2 * Reps * Rabs x + t.
Proof.
  exists kinked, 0, 1, (1 / 2), 0.
  split; [lra|]. split; [lra|]. split; [exact kinked_continuous|].
  split; [rewrite kinked_0, kinked_1; lra|].
  split.
  - intros [|fuel] Hf; [lia|]. apply brent_kinked.
  - intros r Hr. apply kinked_root in Hr. subst r. rewrite Rabs_R0. unfold Reps.
    rewrite Rabs_left by lra. lra.
Qed.
