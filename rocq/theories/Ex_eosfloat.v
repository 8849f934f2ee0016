(** * Witnesses for the rounding error bounds: sea water of salinity 34.7, 4.2 degrees, 2000.1 dbar *)
From Coq Require Import ZArith Reals Bool Lra SpecFloat List.
From Verif Require Import Num SF Res M_eos_base M_jmd95 M_jmdfwg06 M_gsw S_eos S_float P_float P_eosfloat2.
Open Scope R_scope.

Definition ex_s : f64 := Eval vm_compute in lit 347 (-1).
Definition ex_t : f64 := Eval vm_compute in lit 42 (-1).
Definition ex_p : f64 := Eval vm_compute in lit 20001 (-1).
Definition ex_p' : f64 := Eval vm_compute in lit 200010001 (-5).

Lemma lit_val m e x : lit m e = x -> Rabs (Rlit m e) <= 100000 -> finite64 x /\ Rabs (fval x - Rlit m e) <= / 1000000000.
Proof.
  intros <- B. assert (U : u64 * 100000 <= / 10000000000) by (unfold u64; lra). assert (U0 := u64_pos).
  assert (E : eta64 <= / 10000000000).
  { unfold eta64. rewrite <- (Flocq.Core.Raux.bpow_powerRZ Flocq.Core.Zaux.radix2).
    apply Rle_trans with (Flocq.Core.Raux.bpow Flocq.Core.Zaux.radix2 (-60)).
    - apply Flocq.Core.Raux.bpow_le. discriminate.
    - simpl. lra. }
  assert (G : 100000 <= big64).
  { unfold big64. rewrite <- (Flocq.Core.Raux.bpow_powerRZ Flocq.Core.Zaux.radix2).
    apply Rle_trans with (Flocq.Core.Raux.bpow Flocq.Core.Zaux.radix2 60).
    - simpl. lra.
    - apply Flocq.Core.Raux.bpow_le. discriminate. }
  destruct (sf_lit_near m e) as [F N]; [lra|]. split; [exact F|].
  eapply Rle_trans; [exact N|]. assert (0 <= Rabs (Rlit m e)) by apply Rabs_pos. nra.
Qed.

Lemma ex_vals : finite64 ex_s /\ finite64 ex_t /\ finite64 ex_p /\ finite64 ex_p' /\
  ocean (fval ex_s) (fval ex_t) (fval ex_p) /\ ocean (fval ex_s) (fval ex_t) (fval ex_p') /\
  0 < fval ex_s /\ fval ex_p + dec 2 (-8) <= fval ex_p'.
Proof.
  assert (A : Rlit 347 (-1) = 34.7) by (unfold Rlit; simpl; lra).
  assert (B : Rlit 42 (-1) = 4.2) by (unfold Rlit; simpl; lra).
  assert (C : Rlit 20001 (-1) = 2000.1) by (unfold Rlit; simpl; lra).
  assert (D : Rlit 200010001 (-5) = 2000.10001) by (unfold Rlit; simpl; lra).
  destruct (lit_val 347 (-1) ex_s) as [F1 E1]; [vm_compute; reflexivity|rewrite A, Rabs_pos_eq; lra|].
  destruct (lit_val 42 (-1) ex_t) as [F2 E2]; [vm_compute; reflexivity|rewrite B, Rabs_pos_eq; lra|].
  destruct (lit_val 20001 (-1) ex_p) as [F3 E3]; [vm_compute; reflexivity|rewrite C, Rabs_pos_eq; lra|].
  destruct (lit_val 200010001 (-5) ex_p') as [F4 E4]; [vm_compute; reflexivity|rewrite D, Rabs_pos_eq; lra|].
  rewrite A in E1. rewrite B in E2. rewrite C in E3. rewrite D in E4.
  apply Flocq.Core.Raux.Rabs_le_inv in E1. apply Flocq.Core.Raux.Rabs_le_inv in E2.
  apply Flocq.Core.Raux.Rabs_le_inv in E3. apply Flocq.Core.Raux.Rabs_le_inv in E4.
  split; [exact F1|]. split; [exact F2|]. split; [exact F3|]. split; [exact F4|].
  assert (R : dec 2 (-8) = 2 / 100000000) by exact (dec_neg 2 8 ltac:(discriminate)). rewrite R.
  unfold ocean. lra.
Qed.

(** the computed density, 1036.61... *)
Lemma ex_jm : jmd95_rho sdiv ex_s ex_t ex_p = Ok (S754_finite false 4559067307094102 (-42)).
Proof. vm_compute. reflexivity. Qed.
