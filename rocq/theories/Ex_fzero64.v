(** * Witnesses for root finding in binary64: x^2 - 2 between 0 and 2 *)
From Coq Require Import ZArith Reals Bool SpecFloat Lia Lra Psatz.
From Flocq Require Import Core.Raux.
From Verif Require Import Num SF Res M_fzero S_float S_fzero S_fzero64 P_float P_fl P_brent64 P_gtb64 P_fzero64.
Open Scope R_scope.

Definition sq2 (x : f64) : res f64 := Ok (sub (mul x x) (lit 2 0)).
Definition ex_tol : f64 := Eval vm_compute in div (lit 1 0) (lit 1048576 0).
Definition ex_guess : f64 := lit 3 0.

Lemma fl_tol : finite64 ex_tol /\ fval ex_tol = / 1048576.
Proof. const64 4503599627370496%positive (-72)%Z. Qed.

Lemma sq2_near z : between64 (lit 0 0 : f64) (lit 2 0 : f64) z ->
  exists y, sq2 z = Ok y /\ finite64 y /\ Rabs (fval y - (fval z * fval z - 2)) <= / 1000000000000.
Proof.
  destruct fl_zero as [Fz E0]. destruct fl_two as [F2 E2]. destruct lim9_big as [L1 L2].
  intros [F H]. rewrite E0, E2 in H. eexists. split; [reflexivity|].
  assert (Et : eta64 <= / 9007199254740992).
  { unfold eta64. change (powerRZ 2 (-1075)) with (/ 2 ^ 1075). apply Rinv_le_contravar; [lra|].
    apply Rle_trans with (2 ^ 53); [lra|apply Rle_pow; [lra|lia]]. }
  assert (Q : 0 <= fval z * fval z <= 4) by nra.
  destruct (sf_mul_near z z F F) as [Fm Hm]. { rewrite Rabs_pos_eq by lra. lra. }
  rewrite (Rabs_pos_eq (fval z * fval z)) in Hm by lra. apply Rabs_le_inv in Hm. unfold u64 in Hm.
  destruct (sf_sub_near (sf_mul z z) (lit 2 0 : f64) Fm F2) as [Fs Hs]. { rewrite E2. apply Rabs_le. lra. }
  split; [exact Fs|]. rewrite E2 in Hs.
  assert (Hb : Rabs (fval (sf_mul z z) - 2) <= 4) by (apply Rabs_le; lra).
  assert (Hc : u64 * Rabs (fval (sf_mul z z) - 2) <= 4 * / 9007199254740992) by (unfold u64; lra).
  apply Rabs_le. apply Rabs_le_inv in Hs. change (fval (sub (mul z z) (lit 2 0))) with (fval (sf_sub (sf_mul z z) (lit 2 0 : f64))). lra.
Qed.

Lemma sq2_defined : defined_on sq2 (lit 0 0 : f64) (lit 2 0 : f64).
Proof. intros z H. destruct (sq2_near z H) as (y & E & F & _). exists y. split; assumption. Qed.

Lemma sq2_hyps : finite64 (lit 0 0 : f64) /\ finite64 (lit 2 0 : f64) /\ finite64 ex_tol /\ finite64 ex_guess /\
  ordinary (fval (lit 0 0 : f64)) /\ ordinary (fval (lit 2 0 : f64)) /\ tolerance_ok (fval ex_tol) /\
  fval (lit 0 0 : f64) <= fval (lit 2 0 : f64) /\ defined_on sq2 (lit 0 0 : f64) (lit 2 0 : f64) /\
  apart (fval (lit 0 0 : f64)) (Rmin (Rmax (fval ex_guess) (fval (lit 0 0 : f64))) (fval (lit 2 0 : f64))) /\
  apart (Rmin (Rmax (fval ex_guess) (fval (lit 0 0 : f64))) (fval (lit 2 0 : f64))) (fval (lit 2 0 : f64)).
Proof.
  destruct fl_zero as [Fz E0]. destruct fl_two as [F2 E2]. destruct fl_tol as [Ft Et]. destruct fl_three as [F3 E3].
  assert (A : 64 <= powerRZ 2 900) by (change (powerRZ 2 900) with (2 ^ 900); apply Rle_trans with (2 ^ 6); [lra|apply Rle_pow; [lra|lia]]).
  assert (B : powerRZ 2 (-900) <= / 1048576).
  { change (powerRZ 2 (-900)) with (/ 2 ^ 900). apply Rinv_le_contravar; [lra|]. apply Rle_trans with (2 ^ 20); [lra|apply Rle_pow; [lra|lia]]. }
  assert (C : powerRZ 2 (-1000) <= 1).
  { change (powerRZ 2 (-1000)) with (/ 2 ^ 1000). rewrite <- Rinv_1. apply Rinv_le_contravar; [lra|]. apply pow_R1_Rle. lra. }
  split; [exact Fz|]. split; [exact F2|]. split; [exact Ft|]. split; [exact F3|].
  split; [unfold ordinary; rewrite E0, Rabs_R0; lra|]. split; [unfold ordinary; rewrite E2, Rabs_pos_eq; lra|].
  split; [unfold tolerance_ok; rewrite Et; lra|]. split; [rewrite E0, E2; lra|]. split; [exact sq2_defined|].
  assert (G : fval ex_guess = 3) by exact E3. rewrite G, E0, E2.
  rewrite (Rmax_left 3 0) by lra. rewrite (Rmin_right 3 2) by lra. unfold apart. split; [right; lra|left; reflexivity].
Qed.

Definition sq2_run : f64 := Eval vm_compute in
  match brent sq2 100 (lit 0 0) (lit 2 0) ex_tol with Ok x => x | Err _ => nan end.
Lemma sq2_runs : brent sq2 100 (lit 0 0) (lit 2 0) ex_tol = Ok sq2_run.
Proof. vm_compute. reflexivity. Qed.
Definition sq2_guess_run : f64 := Eval vm_compute in
  match brent_guess sq2 13 100 ex_guess (lit 0 0) (lit 2 0) ex_tol with Ok x => x | Err _ => nan end.
Lemma sq2_guess_runs : brent_guess sq2 13 100 ex_guess (lit 0 0) (lit 2 0) ex_tol = Ok sq2_guess_run.
Proof. vm_compute. reflexivity. Qed.

(** the value returned is within 1e-6 of the square root of two *)
Lemma sq2_accurate : Rabs (fval sq2_run - sqrt 2) <= / 100000.
Proof.
  destruct sq2_hyps as (Fz & F2 & Ft & _ & O0 & O2 & Tok & L & D & _). destruct fl_zero as [_ E0]. destruct fl_two as [_ E2]. destruct fl_tol as [_ Et].
  destruct (sq2_near (lit 0 0 : f64)) as (fa & Ea & Ffa & Ha); [split; [exact Fz|split; [apply Rle_refl|exact L]]|].
  destruct (sq2_near (lit 2 0 : f64)) as (fb & Eb & Ffb & Hb); [split; [exact F2|split; [exact L|apply Rle_refl]]|].
  rewrite E0 in Ha. rewrite E2 in Hb. apply Rabs_le_inv in Ha. apply Rabs_le_inv in Hb.
  destruct (brent64 sq2 (lit 0 0 : f64) (lit 2 0 : f64) ex_tol fa fb Fz F2 Ft O0 O2 Tok L D Ea Eb) as (x & Ex & Hx); [nra|].
  (* a run with less fuel that ends gives the same result *)
  destruct (nat_above (5 * (fval (lit 2 0 : f64) - fval (lit 0 0 : f64)) / fval ex_tol + 1)) as [n Hn].
  pose proof (Ex (max n 100) ltac:(eapply Rle_trans; [exact Hn|apply le_INR; lia])) as E1.
  assert (E3 : brent sq2 (max n 100) (lit 0 0) (lit 2 0) ex_tol = Ok sq2_run).
  { unfold brent in *. 
    replace (isnan (lit 0 0 : f64) || isnan (lit 2 0 : f64) || ltb (lit 2 0 : f64) (lit 0 0))%bool with false in * by (vm_compute; reflexivity).
    pose proof sq2_runs as R. unfold brent in R.
    replace (isnan (lit 0 0 : f64) || isnan (lit 2 0 : f64) || ltb (lit 2 0 : f64) (lit 0 0))%bool with false in R by (vm_compute; reflexivity).
    unfold sq2 at 1 2 in R. unfold sq2 at 1 2. cbn [bind] in R |- *.
    match type of R with (if ?c then _ else _) = _ => replace c with false in * by (vm_compute; reflexivity) end.
    apply XRlemmas.loop_mono with (n := 100%nat); [exact R|discriminate|lia]. }
  assert (x = sq2_run) by congruence. subst x.
  destruct (found_root sq2 (fun x => x * x - 2) (/ 1000000000000) (lit 0 0 : f64) (lit 2 0 : f64) ex_tol sq2_run) as (r & Hr & Gr & Dr).
  - rewrite Et. lra.
  - lra.
  - intros z _. apply derivable_continuous_pt. reg.
  - intros z y Hz Ez. destruct (sq2_near z Hz) as (y' & Ey' & _ & H). congruence.
  - exact Hx.
  - rewrite E0, E2 in Hr. destruct Hx as [[_ Hb'] _]. rewrite E0, E2 in Hb'.
    unfold brent_tol, Reps in Dr. rewrite Et, (Rabs_pos_eq (fval sq2_run)) in Dr by lra. rewrite <- u8 in Dr. unfold u64 in Dr.
    assert (S2 : 1.4 < sqrt 2 < 1.5).
    { split; [rewrite <- (sqrt_square 1.4) by lra|rewrite <- (sqrt_square 1.5) by lra]; apply sqrt_lt_1; lra. }
    pose proof (sqrt_sqrt 2 ltac:(lra)) as SS. apply Rabs_le_inv in Gr.
    assert (R1 : Rabs (r - sqrt 2) <= / 1000000000000).
    { assert (E : (r - sqrt 2) * (r + sqrt 2) = r * r - 2) by (ring_simplify; nra).
      apply Rabs_le. nra. }
    apply Rabs_le_inv in R1. apply Rabs_le_inv in Dr. apply Rabs_le. lra.
Qed.
