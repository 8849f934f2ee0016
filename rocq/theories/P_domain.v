(** * Ranges of an equation of state: lemmas *)
From Coq Require Import Reals Lra.
From Verif Require Import XR Res S_domain.
Local Open Scope R_scope.

Lemma interval_minmax C x y z : interval C -> C x -> C y -> Rmin x y <= z <= Rmax x y -> C z.
Proof.
  intros HC Hx Hy Hz. unfold Rmin, Rmax in Hz. destruct (Rle_dec x y).
  - apply (HC x y); assumption.
  - apply (HC y x); assumption.
Qed.
Lemma interval_mid C x y : interval C -> C x -> C y -> C ((x + y) / 2).
Proof.
  intros HC Hx Hy. destruct (Rle_dec x y).
  - apply (HC x y); [assumption|assumption|lra].
  - apply (HC y x); [assumption|assumption|lra].
Qed.

Lemma eos_real_on eos rho : eos_real eos rho <-> eos_on everywhere eos rho.
Proof. split; intros H s t p; [intros _ _ _|]; apply H; exact I. Qed.
Lemma eos_s_t_real_on eos_s_t rs rt : eos_s_t_real eos_s_t rs rt <-> eos_s_t_on everywhere eos_s_t rs rt.
Proof. split; intros H s t p; [intros _ _ _|]; apply H; exact I. Qed.
Lemma bottle_in_everywhere s t p : bottle_in everywhere (Fin s, Fin t, Fin p).
Proof. exists s, t, p. repeat split. Qed.
